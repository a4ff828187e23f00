(** The planet registry, the term's reward budget and the offers of a history. *)
From Verif Require Import Model.HvhState Model.HvhExt Spec.HvhSpec Proof.HvhFacts Proof.HvhSupply Proof.HvhTreasury
  Proof.HvhTerms Proof.HvhIssue.
From Coq Require Import ZArith List Bool Lia ZifyBool.
Import ListNotations.
Open Scope Z_scope.

(** ** Counting *)
Definition count {A} (f : A -> bool) (l : list A) : Z := Z.of_nat (length (filter f l)).
Lemma count_ext {A} (f g : A -> bool) l : (forall x, In x l -> f x = g x) -> count f l = count g l.
Proof.
  intros E. unfold count. f_equal. induction l as [|x r IH]; [reflexivity|]. cbn.
  rewrite (E x) by (left; auto). destruct (g x); cbn; rewrite IH by (intros; apply E; right; auto); auto.
Qed.
Lemma count_le {A} (f : A -> bool) l : 0 <= count f l <= Z.of_nat (length l).
Proof. unfold count. induction l as [|x r IH]; cbn; [lia|]. destruct (f x); cbn [length]; lia. Qed.
Lemma count_cons {A} (f : A -> bool) x l : count f (x :: l) = (if f x then 1 else 0) + count f l.
Proof. unfold count. cbn [filter]. destruct (f x); cbn [length]; lia. Qed.
Lemma count_drop (f g : Z -> bool) k l : NoDup l -> In k l -> f k = true -> g k = false ->
  (forall x, x <> k -> f x = g x) -> count g l + 1 = count f l.
Proof.
  intros nd i fk gk E. induction nd as [|x r n nd IH]; [destruct i|]. rewrite !count_cons.
  destruct (Z.eq_dec x k) as [-> | ne].
  - rewrite fk, gk. rewrite (count_ext f g r); [lia|]. intros y Hy. apply E. intros ->. auto.
  - destruct i as [-> | i]; [congruence|]. rewrite (E x) by auto. specialize (IH i). lia.
Qed.
Lemma count_remove (f : Z -> bool) k l : count f (remove Z.eq_dec k l) <= count f l.
Proof.
  induction l as [|x r IH]; cbn [remove]; [lia|]. rewrite count_cons.
  destruct (Z.eq_dec k x); [|rewrite count_cons]; destruct (f x); lia.
Qed.
Lemma remove_nodup k l : NoDup l -> NoDup (remove Z.eq_dec k l).
Proof.
  intros nd. induction nd as [|x r n nd IH]; cbn; [constructor|]. destruct (Z.eq_dec k x); [auto|].
  constructor; [|auto]. intros i. apply in_remove in i. tauto.
Qed.
Lemma remove_length k l : NoDup l -> In k l -> Z.of_nat (length (remove Z.eq_dec k l)) = Z.of_nat (length l) - 1.
Proof.
  intros nd. induction nd as [|x r n nd IH]; intros i; [destruct i|]. cbn [remove].
  destruct (Z.eq_dec k x) as [-> | ne].
  - rewrite notin_remove by auto. cbn [length]. lia.
  - destruct i as [-> | i]; [congruence|]. specialize (IH i). cbn [length]. lia.
Qed.

(** ** Registry operations read backwards *)
Lemma check_nft_inv from w u w' : check_nft from w = (Ok u, w') -> addr_eqb PlanetNFT from = true /\ w' = w.
Proof. unfold check_nft. destruct (addr_eqb _ _); intros H; hstep H; auto. Qed.
Lemma check_gov_inv from w u w' : check_governance from w = (Ok u, w') -> addr_eqb from (gov w) = true /\ w' = w.
Proof.
  unfold check_governance. intros H. hbind H g w1 H1. hstep H1. destruct (addr_eqb _ _); hstep H; auto.
Qed.

Lemma register_inv from id private company owner usdt price w u w' :
  exec from (RegisterPlanet id private company owner usdt price) w = (Ok u, w') ->
  let i := int64 id in
  0 <= i /\ planets w i = None /\ all_planet w < MaxPlanetCount /\
  w' = set_all_planet (all_planet w + 1)
         (set_planets (upd (planets w) i (Some (mkPlanet private company owner usdt price (height w)))) w).
Proof.
  intros H i. cbn [exec] in H. hbind H q w1 H1. apply check_nft_inv in H1 as [_ ->]. hbind H h w1 H1. hstep H1.
  unfold state_register_planet in H. fold i in H. destruct (i <? 0) eqn:N; [hstep H|].
  hbind H p w1 H1. hstep H1. destruct (planets w i) eqn:P; [hstep H|]. hbind H n w1 H1. hstep H1.
  destruct (_ <=? all_planet w) eqn:M; [hstep H|]. hbind H q1 w1 H1. hstep H1. hstep H.
  repeat split; lia.
Qed.
Lemma unregister_inv from id w u w' :
  exec from (UnregisterPlanet id) w = (Ok u, w') ->
  let i := int64 id in
  exists p, 0 <= i /\ planets w i = Some p /\ 1 <= all_planet w /\
  (forall x, planets w' x = upd (planets w) i None x) /\ all_planet w' = all_planet w - 1 /\
  (forall x, x <> i -> reward_of w' x = reward_of w x) /\
  (oview w' = oview w).
Proof.
  intros H i. cbn [exec] in H. hbind H q w1 H1. apply check_nft_inv in H1 as [_ ->].
  unfold unregister_planet in H. hbind H rv w1 H1. hstep H1. hbind H dl w1 H1. fold i in H1, H.
  unfold state_unregister_planet in H1. destruct (i <? 0) eqn:N; [hstep H1|]. hbind H1 p w2 H2. hstep H2.
  destruct (planets w i) as [p|] eqn:P; [|hstep H1]. hbind H1 n w2 H2. hstep H2.
  destruct (all_planet w <? 1) eqn:AP; [hstep H1|]. hbind H1 q1 w2 H2. hstep H2. hbind H1 q2 w2 H2. hstep H2.
  match type of H1 with _ ?a = _ => set (w2 := a) in H1 end.
  assert (K : (planets w1 = planets w2 /\ all_planet w1 = all_planet w2 /\ oview w1 = oview w2) /\
              forall x, x <> i -> reward_of w1 x = reward_of w2 x).
  { destruct (_ <=? _); [|hstep H1; auto]. hbind H1 pr w3 H3. hstep H3. hbind H1 q3 w3 H3. hbind H1 q4 w4 H4. hstep H4. hstep H1.
    assert (E : exists l, w3 = set_lost l w2).
    { unfold add_lost in H3. destruct (pr_current (reward_of w2 i) <? 0); [hstep H3|]. destruct (pr_current (reward_of w2 i) =? 0); hstep H3; [|eauto].
      exists (lost w2). symmetry. apply eta_lost. }
    destruct E as [l ->]. split; [auto|]. intros x ne. unfold reward_of. cbn [rewards set_rewards]. rewrite upd_other by auto.
    reflexivity. }
  assert (K2 : (planets w' = planets w1 /\ all_planet w' = all_planet w1 /\ oview w' = oview w1) /\ rewards w' = rewards w1).
  { apply when_ok in H as [[_ H] | [_ ->]]; [|auto]. hbind H tt0 w3 H3. hstep H3. hstep H. auto. }
  destruct K as [(K1 & K3 & K4) K5], K2 as [(J1 & J3 & J4) J5].
  exists p. split; [lia|]. split; [reflexivity|]. split; [lia|]. split; [intros x; rewrite J1, K1; reflexivity|].
  split; [rewrite J3, K3; reflexivity|]. split; [|rewrite J4, K4; reflexivity].
  intros x ne. unfold reward_of at 1. rewrite J5. fold (reward_of w1 x). rewrite K5 by auto. reflexivity.
Qed.
Lemma set_owner_inv from id owner w u w' :
  exec from (SetPlanetOwner id owner) w = (Ok u, w') ->
  let i := int64 id in
  exists p p', planets w i = Some p /\ p_owner p' = owner /\ p_private p' = p_private p /\ p_company p' = p_company p /\
    p_usdt p' = p_usdt p /\ p_price p' = p_price p /\ p_height p' = p_height p /\
    w' = set_planets (upd (planets w) i (Some p')) w.
Proof.
  intros H i. cbn [exec] in H. hbind H q w1 H1. apply check_nft_inv in H1 as [_ ->]. fold i in H.
  unfold state_set_planet_owner in H. hbind H p w1 H1. unfold state_get_planet in H1.
  destruct (i <? 0) eqn:I0; [hstep H1|]. hbind H1 p0 w2 H2. hstep H2. destruct (planets w i) as [p1|] eqn:P; [|hstep H1].
  hstep H1. hstep H. exists p1. destruct (addr_eqb (p_owner p1) owner) eqn:O.
  - exists p1. repeat split; auto. unfold addr_eqb in O. destruct (p_owner p1), owner; cbn in *.
    apply andb_true_iff in O as [O1 O2]. apply Bool.eqb_prop in O1. f_equal; [auto | lia].
  - exists (mkPlanet (p_private p1) (p_company p1) owner (p_usdt p1) (p_price p1) (p_height p1)). repeat split; auto.
Qed.

Lemma report_exec from id w u w' : exec from (ReportPlanetWork id) w = (Ok u, w') ->
  state_is_manager w from = true /\ report_planet_work (int64 id) w = (Ok u, w').
Proof.
  intros H. cbn [exec] in H. hbind H ok w1 H1. hstep H1. destruct (state_is_manager w from); cbn [negb] in H; [auto | hstep H].
Qed.

(** Fields after a report. *)
Lemma report_fields id w u w' : report_planet_work id w = (Ok u, w') ->
  exists p full,
    let ts := current_term w in
    0 <= ts /\ 0 <= id /\ planets w id = Some p /\ p_height p < term_begin w /\ pr_last_tn (reward_of w id) < ts + 1 /\
    0 <= reward_per_planet w /\ (reward_per_planet w = 0 \/ reward_per_planet w <= reward_remain w) /\
    reward_remain w' = reward_remain w - reward_per_planet w /\ reward_total w' = reward_total w /\
    active_planet w' = active_planet w /\ working_planet w' = working_planet w + 1 /\ pview w' = pview w /\
    pr_last_tn (reward_of w' id) = ts + 1 /\
    (forall x, x <> id -> reward_of w' x = reward_of w x) /\
    (forall t i, offers (log w') t i = (if (ts =? t) && (id =? i) then [full] else []) ++ offers (log w) t i).
Proof.
  intros H. apply report_inv in H as (p & w2 & H). cbv zeta in H.
  destruct H as (st & i0 & P & ph & lt & r0 & rr & T & n1 & n2 & ->).
  rewrite quot_current in * by auto. pose proof (current_started w st) as [_ ct].
  eexists p, _. cbv zeta. split; [exact ct|]. split; [exact i0|]. split; [exact P|].
  split; [unfold term_begin; lia|]. split; [exact lt|]. split; [exact r0|]. split; [exact rr|].
  apply (transfer_quiet _ _ _ _ _ _ _ eq_refl) in T.
  assert (E : pview w2 = pview w /\ rewards w2 = rewards w /\ offers (log w2) = offers (log w) /\
              reward_view w2 = reward_view (set_reward_remain (reward_remain w - reward_per_planet w) w)).
  { unfold oview in T. injection T as T. repeat split; try assumption. unfold pview. cbn in *. congruence.
    unfold reward_view. cbn in *. congruence. }
  clear T. destruct E as (E1 & E2 & E3 & E4). unfold reward_view in E4. cbn in E4. injection E4 as F1 F2 F3 F4.
  unfold reported. cbn [reward_remain reward_total active_planet working_planet set_log set_working_planet set_eco_reward set_rewards].
  split; [exact F4|]. split; [exact F3|]. split; [exact F1|]. split; [congruence|]. split; [exact E1|].
  split. { unfold reward_of at 1. cbn [rewards set_log set_working_planet set_eco_reward set_rewards]. rewrite upd_same. reflexivity. }
  split. { intros x ne. unfold reward_of. cbn [rewards set_log set_working_planet set_eco_reward set_rewards].
           rewrite upd_other by auto. rewrite E2. reflexivity. }
  intros t i. rewrite <- E3. reflexivity.
Qed.

(** ** The invariant *)
Definition eligible (w : world) (id : Z) : bool :=
  match planets w id with
  | Some p => (p_height p <? term_begin w) && (pr_last_tn (reward_of w id) <? current_term w + 1)
  | None => false
  end.
Definition registered (w : world) (l : list Z) : Prop :=
  NoDup l /\ (forall id, In id l <-> planets w id <> None) /\ Z.of_nat (length l) = all_planet w.

Definition budget (w : world) : Prop :=
  0 <= active_planet w /\ 0 <= working_planet w /\ 0 <= reward_total w /\
  (current_term w = -1 -> active_planet w = 0 /\ working_planet w = 0 /\ reward_total w = 0 /\ reward_remain w = 0) /\
  (0 <= current_term w < get_issue_limit w -> reward_remain w = reward_total w - reward_per_planet w * working_planet w) /\
  (get_issue_limit w <= current_term w -> active_planet w = 0).
Definition room (w : world) : Prop :=
  all_planet w <= MaxPlanetCount /\
  (forall id p, planets w id = Some p -> p_height p <= height w /\ 0 <= id < 2 ^ 63) /\
  exists l, registered w l /\
    (0 <= current_term w < get_issue_limit w -> working_planet w + count (eligible w) l <= active_planet w).
Definition once (w : world) : Prop :=
  forall t id, (length (offers (log w) t id) <= 1)%nat /\
    (offers (log w) t id <> [] ->
     0 <= t <= current_term w /\
     forall p, planets w id = Some p -> p_height p < issue_start w + t * get_term_period w ->
       t + 1 <= pr_last_tn (reward_of w id)).

Lemma int64_range z : - 2 ^ 63 <= int64 z < 2 ^ 63.
Proof. unfold int64. pose proof (Z.mod_pos_bound (z + 2 ^ 63) (2 ^ 64)). lia. Qed.

(** Worlds agreeing on what the invariant looks at. *)
Definition tview (w : world) := (issue_start w, get_term_period w, get_issue_limit w, current_term w, height w).
Lemma budget_same w w' : tview w' = tview w -> reward_view w' = reward_view w -> budget w -> budget w'.
Proof.
  unfold tview, reward_view, budget, reward_per_planet. intros E1 E2. injection E1 as _ _ -> -> _. injection E2 as -> -> -> ->. auto.
Qed.
Lemma eligible_same w w' id : tview w' = tview w -> planets w' id = planets w id ->
  pr_last_tn (reward_of w' id) = pr_last_tn (reward_of w id) -> eligible w' id = eligible w id.
Proof.
  unfold tview, eligible, term_begin. intros E -> ->. injection E as -> -> _ -> _. reflexivity.
Qed.
Lemma room_same w w' : tview w' = tview w -> reward_view w' = reward_view w -> pview w' = pview w ->
  (forall id, pr_last_tn (reward_of w' id) = pr_last_tn (reward_of w id)) -> room w -> room w'.
Proof.
  intros E1 E2 E3 L (m & ph & l & (nd & rg & len) & r). unfold pview in E3. injection E3 as P A.
  assert (E1' := E1). unfold tview in E1'. injection E1' as T1 T2 T3 T4 T5.
  unfold room, registered. rewrite P, A, T5. split; [auto|]. split; [auto|]. exists l. split; [auto|].
  rewrite T3, T4. unfold reward_view in E2. injection E2 as R1 R2 _ _. rewrite R1, R2. intros c. 
  rewrite (count_ext (eligible w') (eligible w)); [auto|]. intros id _. apply eligible_same; auto. rewrite P. auto.
Qed.
Lemma once_same w w' : tview w' = tview w -> offers (log w') = offers (log w) -> pview w' = pview w ->
  (forall id, pr_last_tn (reward_of w' id) = pr_last_tn (reward_of w id)) -> once w -> once w'.
Proof.
  intros E1 E2 E3 L o t id. specialize (o t id). unfold pview in E3. injection E3 as P A.
  unfold tview in E1. injection E1 as T1 T2 T3 T4 T5. rewrite E2, P, L, T1, T2, T4. exact o.
Qed.
Lemma once_not_started w w' : current_term w = -1 -> offers (log w') = offers (log w) -> once w -> once w'.
Proof.
  intros c E o t id. destruct (o t id) as [_ n]. rewrite E.
  destruct (offers (log w) t id); [split; [cbn; lia | congruence]|]. specialize (n ltac:(congruence)). lia.
Qed.

Definition rewards_inv (w : world) : Prop := budget w /\ room w /\ once w.

Lemma tview_exec from c w u w' : exec from c w = (Ok u, w') ->
  (issue_start w' = issue_start w \/ current_term w = -1) ->
  height w' = height w /\ get_term_period w' = get_term_period w /\ get_issue_limit w' = get_issue_limit w /\
  current_term w' = current_term w.
Proof.
  intros H _. pose proof (exec_term _ _ _ _ _ H) as CT. apply (exec_xview _ _ _ _ _ _ eq_refl) in H.
  unfold xview, cfg in H. unfold get_term_period, get_issue_limit. repeat split; congruence.
Qed.

Lemma exec_budget from c w u w' : budget w -> exec from c w = (Ok u, w') -> budget w'.
Proof.
  intros b H. pose proof (exec_term _ _ _ _ _ H) as CT.
  assert (LM : get_issue_limit w' = get_issue_limit w).
  { pose proof (exec_xview _ _ _ _ _ _ eq_refl H) as X. unfold xview, cfg in X. unfold get_issue_limit. congruence. }
  assert (same : reward_view w' = reward_view w -> budget w').
  { intros E2. revert b. unfold reward_view, budget, reward_per_planet in *. rewrite CT, LM. injection E2 as -> -> -> ->. auto. }
  destruct c; try (apply same; match type of H with exec _ ?cc _ = _ => pose proof (exec_quiet _ _ _ (I : quiet cc) _ _ _ eq_refl H) as Q end; unfold oview in Q; congruence).
  - apply register_inv in H as (_ & _ & _ & ->). apply same. reflexivity.
  - apply unregister_inv in H as (p & _ & _ & _ & _ & _ & _ & O). apply same. unfold oview in O. congruence.
  - apply set_owner_inv in H as (p & p' & _ & _ & _ & _ & _ & _ & _ & ->). apply same. reflexivity.
  - apply report_exec in H as [_ H]. apply report_fields in H as (p & full & H). cbv zeta in H.
    destruct H as (ct & _ & _ & _ & _ & r0 & rr & R1 & R2 & R3 & R4 & _).
    destruct b as (b1 & b2 & b3 & b4 & b5 & b6). unfold budget.
    assert (RP : reward_per_planet w' = reward_per_planet w) by (unfold reward_per_planet; rewrite R2, R3; reflexivity).
    rewrite CT, LM, RP, R1, R2, R3, R4. repeat split; lia.
  - cbn [exec] in H. apply (claim_quiet _ _ _ _ _ _ eq_refl) in H. apply same. unfold oview in H. congruence.
Qed.

Lemma term_begin_mono w t : t <= current_term w -> issue_start w + t * get_term_period w <= term_begin w.
Proof. intros. unfold term_begin. pose proof (period_pos w). nia. Qed.

Lemma exec_once from c w u w' : room w -> once w -> exec from c w = (Ok u, w') -> once w'.
Proof.
  intros (_ & ph & _) o H. pose proof (exec_term _ _ _ _ _ H) as CT.
  pose proof (exec_xview _ _ _ _ _ _ eq_refl H) as X.
  assert (HT : height w' = height w /\ get_term_period w' = get_term_period w /\ get_issue_limit w' = get_issue_limit w).
  { unfold xview, cfg in X. unfold get_term_period, get_issue_limit. repeat split; congruence. }
  destruct HT as (HT & TP & LM). clear X.
  assert (st : issue_start w' = issue_start w \/ current_term w = -1).
  { apply exec_start in H as [H | [H _]]; [auto | right; apply current_not_started; auto]. }
  assert (TV : issue_start w' = issue_start w -> tview w' = tview w).
  { intros E. unfold tview. congruence. }
  assert (same : offers (log w') = offers (log w) -> pview w' = pview w ->
                 (forall id, pr_last_tn (reward_of w' id) = pr_last_tn (reward_of w id)) -> once w').
  { intros E1 E2 E3. destruct st as [st|st]; [apply (once_same w w'); auto | apply (once_not_started w w'); auto]. }
  destruct c; try (match type of H with exec _ ?cc _ = _ => pose proof (exec_quiet _ _ _ (I : quiet cc) _ _ _ eq_refl H) as Q end; unfold oview in Q;
                   apply same; [congruence | congruence | intros; unfold reward_of; replace (rewards w') with (rewards w) by congruence; reflexivity]).
  - apply register_inv in H as (i0 & P & _ & ->). set (i := int64 id) in *. intros t x. destruct (o t x) as [len n].
    cbn [log set_all_planet set_planets]. split; [exact len|]. intros ne. specialize (n ne) as [ts n]. split; [exact ts|].
    intros p. cbn [planets set_all_planet set_planets]. destruct (Z.eq_dec x i) as [-> | nx].
    + rewrite upd_same. intros [= <-]. cbn [p_height].
      match goal with |- ?a < ?b -> _ => change (height w < issue_start w + t * get_term_period w -> t + 1 <= pr_last_tn (reward_of w i)) end.
      pose proof (term_begin_mono w t ltac:(lia)). pose proof (term_begin_le w ltac:(lia)). lia.
    + rewrite upd_other by auto. intros E. apply n. exact E.
  - apply unregister_inv in H as (p & _ & _ & _ & PL & _ & RW & O). set (i := int64 id) in *.
    unfold oview in O. injection O as O _ _ _ _. intros t x. destruct (o t x) as [len n]. rewrite O. split; [exact len|].
    intros ne. specialize (n ne) as [ts n]. rewrite CT. split; [exact ts|]. intros p0. rewrite PL.
    destruct (Z.eq_dec x i) as [-> | nx]; [rewrite upd_same; discriminate|]. rewrite upd_other by auto. rewrite RW by auto.
    destruct st as [st|st]; [|lia]. rewrite st, TP. apply n.
  - apply set_owner_inv in H as (p & p' & P & _ & _ & _ & _ & _ & PH & ->). set (i := int64 id) in *.
    intros t x. destruct (o t x) as [len n]. split; [exact len|]. intros ne. specialize (n ne) as [ts n]. split; [exact ts|].
    intros p0. cbn [planets set_planets]. destruct (Z.eq_dec x i) as [-> | nx].
    + rewrite upd_same. intros [= <-]. rewrite PH. apply (n p P).
    + rewrite upd_other by auto. apply n.
  - assert (SI : issue_start w' = issue_start w).
    { apply report_exec in H as [_ H]. apply report_inv in H as (p & w2 & H). cbv zeta in H.
      destruct H as (_ & _ & _ & _ & _ & _ & _ & T & _ & _ & ->). apply (transfer_quiet _ _ _ _ _ _ _ eq_refl) in T.
      assert (T' : issue_start w2 = issue_start (set_reward_remain (reward_remain w - reward_per_planet w) w)) by congruence.
      exact T'. }
    apply report_exec in H as [_ H]. apply report_fields in H as (p & full & H). cbv zeta in H.
    set (i := int64 id) in *.
    destruct H as (ct & i0 & P & PH & LT & _ & _ & _ & _ & _ & _ & PV & L1 & RW & OF).
    unfold pview in PV. injection PV as PL AP.
    intros t x. destruct (o t x) as [len n]. rewrite OF, CT, PL, SI, TP.
    destruct (Z.eq_dec x i) as [-> | nx].
    + rewrite Z.eqb_refl, andb_true_r. rewrite L1.
      destruct (current_term w =? t) eqn:E.
      * assert (t = current_term w) as -> by lia.
        destruct (offers (log w) (current_term w) i) eqn:OE.
        -- cbn. split; [lia|]. intros _. split; [lia|]. intros; lia.
        -- exfalso. specialize (n ltac:(congruence)) as [_ n]. specialize (n p P). unfold term_begin in PH. lia.
      * cbn [app]. split; [exact len|]. intros ne. specialize (n ne) as [ts n]. split; [lia|]. intros; lia.
    + rewrite RW by auto. assert ((current_term w =? t) && (i =? x) = false) as -> by lia. cbn [app]. split; [exact len | exact n].
  - cbn [exec] in H. pose proof (claim_quiet _ _ _ _ _ _ eq_refl H) as Q. unfold oview in Q.
    apply same; [congruence | congruence|]. intros x.
    exact (proj1 (claim_last w _ _ w u w' (fun _ => conj eq_refl eq_refl) H x)).
Qed.

Lemma exec_room from c w u w' : room w -> exec from c w = (Ok u, w') -> room w'.
Proof.
  intros r H. pose proof (exec_term _ _ _ _ _ H) as CT.
  pose proof (exec_xview _ _ _ _ _ _ eq_refl H) as X.
  assert (HT : height w' = height w /\ get_term_period w' = get_term_period w /\ get_issue_limit w' = get_issue_limit w).
  { unfold xview, cfg in X. unfold get_term_period, get_issue_limit. repeat split; congruence. }
  destruct HT as (HT & TP & LM). clear X.
  assert (st : issue_start w' = issue_start w \/ current_term w = -1).
  { apply exec_start in H as [H | [H _]]; [auto | right; apply current_not_started; auto]. }
  assert (TV : issue_start w' = issue_start w -> tview w' = tview w).
  { intros E. unfold tview. congruence. }
  assert (same : reward_view w' = reward_view w -> pview w' = pview w ->
                 (forall id, pr_last_tn (reward_of w' id) = pr_last_tn (reward_of w id)) -> room w').
  { intros E1 E2 E3. destruct st as [st|st]; [apply (room_same w w'); auto|].
    destruct r as (m & ph & l & rg & _). unfold pview in E2. injection E2 as P A.
    unfold room, registered in *. rewrite P, A, HT, CT, st. split; [auto|]. split; [auto|]. exists l. split; [auto|]. lia. }
  destruct c; try (match type of H with exec _ ?cc _ = _ => pose proof (exec_quiet _ _ _ (I : quiet cc) _ _ _ eq_refl H) as Q end; unfold oview in Q;
                   apply same; [congruence | congruence | intros; unfold reward_of; replace (rewards w') with (rewards w) by congruence; reflexivity]).
  - apply register_inv in H as (i0 & P & mx & ->). set (i := int64 id) in *.
    destruct r as (m & ph & l & (nd & rg & len) & rm). unfold room.
    cbn [all_planet planets set_all_planet set_planets height]. split; [unfold MaxPlanetCount in *; lia|]. split.
    + intros x p. destruct (Z.eq_dec x i) as [-> | nx].
      * rewrite upd_same. intros [= <-]. cbn. pose proof (int64_range id). fold i in H. lia.
      * rewrite upd_other by auto. apply ph.
    + exists (i :: l). split.
      * split; [constructor; [rewrite rg; congruence | auto]|]. cbn [all_planet planets set_all_planet set_planets]. split.
        -- intros x. destruct (Z.eq_dec x i) as [-> | nx].
           ++ rewrite upd_same. split; [discriminate | left; auto].
           ++ rewrite upd_other by auto. rewrite <- rg. split; [intros [E|E]; [congruence | auto] | right; auto].
        -- cbn [length]. lia.
      * match goal with |- 0 <= ?a < ?b -> _ => change (0 <= current_term w < get_issue_limit w -> working_planet w + count (eligible
           (set_all_planet (all_planet w + 1)
         (set_planets (upd (planets w) i (Some (mkPlanet private company owner usdt price (height w)))) w))) (i :: l) <= active_planet w) end.
        intros c. specialize (rm c). rewrite count_cons.
        match goal with |- context [eligible ?a i] => set (w1 := a) in * end.
        assert (eligible w1 i = false) as ->.
        { unfold eligible, w1. cbn [planets set_all_planet set_planets]. rewrite upd_same. cbn [p_height].
          change (term_begin (set_all_planet (all_planet w + 1)
         (set_planets (upd (planets w) i (Some (mkPlanet private company owner usdt price (height w)))) w))) with (term_begin w).
          pose proof (term_begin_le w ltac:(lia)). destruct (height w <? term_begin w) eqn:E; [lia | reflexivity]. }
        rewrite (count_ext (eligible w1) (eligible w)); [lia|]. intros x ix.
        assert (x <> i) by (intros ->; apply rg in ix; congruence).
        apply eligible_same; try reflexivity. unfold w1. cbn [planets set_all_planet set_planets]. rewrite upd_other by auto. reflexivity.
  - apply unregister_inv in H as (p & i0 & P & ap & PL & AP & RW & O). set (i := int64 id) in *.
    unfold oview, reward_view in O. injection O as _ R1 R2 R3 R4.
    destruct r as (m & ph & l & (nd & rg & len) & rm). unfold room. split; [lia|]. split.
    + intros x p0. rewrite PL, HT. destruct (Z.eq_dec x i) as [-> | nx]; [rewrite upd_same; discriminate|].
      rewrite upd_other by auto. apply ph.
    + assert (il : In i l) by (apply rg; congruence).
      exists (remove Z.eq_dec i l). split.
      * split; [apply remove_nodup; auto|]. split.
        -- intros x. rewrite PL. destruct (Z.eq_dec x i) as [-> | nx].
           ++ rewrite upd_same. split; [intros C; apply remove_In in C; destruct C | congruence].
           ++ rewrite upd_other by auto. rewrite <- rg. split; [intros C; apply in_remove in C; tauto | intros C; apply in_in_remove; auto].
        -- rewrite remove_length by auto. lia.
      * rewrite CT, LM, R1, R2. intros c. specialize (rm c).
        destruct st as [st|st]; [|lia].
        rewrite (count_ext (eligible w') (eligible w)); [pose proof (count_remove (eligible w) i l); lia|].
        intros x ix. apply in_remove in ix as [_ nx]. apply eligible_same; [auto | rewrite PL, upd_other by auto; auto|].
        rewrite RW by auto. reflexivity.
  - apply set_owner_inv in H as (p & p' & P & _ & _ & _ & _ & _ & PH & ->). set (i := int64 id) in *.
    destruct r as (m & ph & l & (nd & rg & len) & rm). unfold room.
    cbn [all_planet planets set_planets height]. split; [auto|]. split.
    + intros x p0. destruct (Z.eq_dec x i) as [-> | nx].
      * rewrite upd_same. intros [= <-]. rewrite PH. apply ph. auto.
      * rewrite upd_other by auto. apply ph.
    + exists l. split.
      * split; [auto|]. cbn [all_planet planets set_planets]. split; [|auto]. intros x. destruct (Z.eq_dec x i) as [-> | nx].
        -- rewrite upd_same. rewrite rg. split; congruence.
        -- rewrite upd_other by auto. apply rg.
      * intros c. specialize (rm c).
        match goal with |- context [count (eligible ?a)] => rewrite (count_ext (eligible a) (eligible w)) end; [exact rm|].
        intros x _. destruct (Z.eq_dec x i) as [-> | nx].
        -- unfold eligible. cbn [planets set_planets]. rewrite upd_same, P, PH. reflexivity.
        -- apply eligible_same; try reflexivity. cbn [planets set_planets]. rewrite upd_other by auto. reflexivity.
  - assert (SI : issue_start w' = issue_start w).
    { apply report_exec in H as [_ H]. apply report_inv in H as (p & w2 & H). cbv zeta in H.
      destruct H as (_ & _ & _ & _ & _ & _ & _ & T & _ & _ & ->). apply (transfer_quiet _ _ _ _ _ _ _ eq_refl) in T.
      assert (T' : issue_start w2 = issue_start (set_reward_remain (reward_remain w - reward_per_planet w) w)) by congruence.
      exact T'. }
    apply report_exec in H as [_ H]. apply report_fields in H as (p & full & H). cbv zeta in H. set (i := int64 id) in *.
    destruct H as (ct & i0 & P & PH & LT & _ & _ & _ & _ & R3 & R4 & PV & L1 & RW & OF).
    unfold pview in PV. injection PV as PL AP.
    destruct r as (m & ph & l & (nd & rg & len) & rm). unfold room, registered. rewrite PL, AP, HT.
    split; [auto|]. split; [auto|]. exists l. split; [auto|]. rewrite CT, LM, R3, R4. intros c. specialize (rm c).
    assert (D : count (eligible w') l + 1 = count (eligible w) l).
    { apply (count_drop _ _ i); auto.
      - apply rg. congruence.
      - unfold eligible. rewrite P. lia.
      - unfold eligible. rewrite PL, P, L1, CT. lia.
      - intros x nx. symmetry. apply eligible_same; [auto | rewrite PL; auto | rewrite RW by auto; auto]. }
    lia.
  - cbn [exec] in H. pose proof (claim_quiet _ _ _ _ _ _ eq_refl H) as Q. unfold oview in Q.
    apply same; [congruence | congruence|]. intros x.
    exact (proj1 (claim_last w _ _ w u w' (fun _ => conj eq_refl eq_refl) H x)).
Qed.

(** ** Blocks *)
Lemma fixed_limit w w' : fixed w' = fixed w -> get_issue_limit w' = get_issue_limit w /\ get_term_period w' = get_term_period w.
Proof. intros F. unfold fixed in F. unfold get_issue_limit, get_term_period. split; congruence. Qed.

Lemma base_rewards rev x w u w' :
  rewards_inv w -> boundary (next_block rev w) = true ->
  base_of_term (current_term (next_block rev w)) x (next_block rev w) = (Ok u, w') -> rewards_inv w'.
Proof.
  intros (b & r & o) Bd B. pose proof (next_term rev w) as NT. rewrite Bd in NT. pose proof (current_ge w) as G.
  set (w1 := next_block rev w) in *.
  assert (V1 : (reward_view w1, get_issue_limit w1, get_term_period w1, planets w1, rewards w1, all_planet w1, log w1, issue_start w1)
             = (reward_view w, get_issue_limit w, get_term_period w, planets w, rewards w, all_planet w, log w, issue_start w)) by reflexivity.
  assert (H1 : height w1 = height w + 1) by reflexivity. clearbody w1.
  apply base_inv in B as (w2 & F & IA & LG & RT & E & B).
  assert (F' : fixed w' = fixed w1 /\ (offers (log w') = offers (log w)) /\
          (current_term w1 < get_issue_limit w1 ->
             active_planet w' = all_planet w1 /\ working_planet w' = working_planet w2 /\
             reward_total w' = reward_remain w' /\ exists a, 0 <= a /\ reward_remain w' = reward_remain w2 + a) /\
          (get_issue_limit w1 <= current_term w1 -> w' = w2)).
  { assert (OL : offers (log w2) = offers (log w)) by (unfold logs in LG; congruence).
    destruct B as [[K B] | [K ->]].
    - apply on_term_start_inv in B. cbv zeta in B. destruct B as (_ & a0 & F' & _ & O' & _ & _ & AP & WP & RR & RT' & _).
      split; [congruence|]. split; [congruence|]. split; [|lia]. intros _. split; [|split; [auto|]].
      + rewrite AP. unfold fixed in F. congruence.
      + split; [congruence|]. eauto.
    - split; [auto|]. split; [auto|]. split; [lia | auto]. }
  clear B. destruct F' as (F' & OF & Lo & Hi).
  pose proof (fixed_term _ _ F') as CT. pose proof (fixed_limit _ _ F') as [LM TP].
  assert (V2 : get_issue_limit w1 = get_issue_limit w) by congruence.
  assert (V3 : get_term_period w1 = get_term_period w) by congruence.
  assert (V6 : all_planet w1 = all_planet w) by congruence.
  assert (V0 : reward_view w1 = reward_view w) by congruence.
  assert (PL : planets w' = planets w) by (unfold fixed in F'; congruence).
  assert (RW : rewards w' = rewards w) by (unfold fixed in F'; congruence).
  assert (AL : all_planet w' = all_planet w) by (unfold fixed in F'; congruence).
  assert (HH : height w' = height w + 1) by (unfold fixed in F'; congruence).
  assert (SS : issue_start w' = issue_start w) by (unfold fixed in F'; congruence).
  clear V1. unfold reward_view in V0. injection V0 as W1 W2 W3 W4.
  assert (RO : forall id, reward_of w' id = reward_of w id) by (intros; unfold reward_of; rewrite RW; auto).
  destruct b as (b1 & b2 & b3 & b4 & b5 & b6). destruct r as (m & ph & l & (nd & rg & len) & rm).
  pose proof (limit_pos w1) as lp.
  assert (lpos : 0 <= all_planet w) by lia.
  assert (WK : active_planet w2 = 0 /\ working_planet w2 = 0 /\ 0 <= reward_remain w2 /\ 0 <= reward_total w2 \/
               get_issue_limit w1 < current_term w1 /\ w2 = w1).
  { destruct E as [(K & e1 & e2 & e3 & e4 & e5) | (K & ->)].
    - left. repeat split; lia.
    - destruct (Z.eq_dec (current_term w) (-1)) as [C|C]; [left; specialize (b4 C); repeat split; lia | right; split; [lia | auto]]. }
  split; [|split].
  - unfold budget, reward_per_planet. rewrite CT, LM.
    destruct (Z_lt_le_dec (current_term w1) (get_issue_limit w1)) as [K|K].
    + specialize (Lo K) as (l1 & l2 & l3 & a & a0 & l4). destruct WK as [WK | [WK _]]; [|lia].
      rewrite l1, l2, l3, V6. destruct WK as (_ & -> & k3 & _). repeat split; lia.
    + specialize (Hi K) as ->. destruct WK as [(k1 & k2 & k3 & k4) | [k ->]].
      * rewrite k1, k2. repeat split; lia.
      * assert (active_planet w = 0) by (apply b6; lia). repeat split; lia.
  - unfold room, registered. rewrite PL, AL, HH, CT, LM. split; [auto|]. split.
    { intros id p E'. specialize (ph id p E'). lia. }
    exists l. split; [auto|]. intros K. specialize (Lo ltac:(lia)) as (l1 & l2 & _).
    destruct WK as [WK | [WK _]]; [|lia]. rewrite l1, l2, V6. destruct WK as (_ & -> & _). pose proof (count_le (eligible w') l). lia.
  - intros t id. destruct (o t id) as [ln n]. rewrite OF. split; [exact ln|]. intros ne. specialize (n ne) as [ts n].
    rewrite CT, NT, PL, SS, TP, V3, RO. split; [lia | exact n].
Qed.

Lemma plain_block rev w : rewards_inv w -> boundary (next_block rev w) = false -> rewards_inv (next_block rev w).
Proof.
  intros (b & r & o) Bd. pose proof (next_term rev w) as NT. rewrite Bd, Z.add_0_r in NT. split; [|split].
  - unfold budget in *. rewrite NT. exact b.
  - destruct r as (m & ph & l & rg & rm). unfold room. rewrite NT. split; [exact m|]. split.
    { intros id p E. specialize (ph id p E). cbn [height next_block set_revision set_height]. lia. }
    exists l. split; [exact rg|]. intros K. specialize (rm K).
    rewrite (count_ext (eligible (next_block rev w)) (eligible w)); [exact rm|]. intros x _.
    unfold eligible, term_begin. rewrite NT. reflexivity.
  - intros t id. rewrite NT. apply o.
Qed.

Lemma history_rewards w0 w : genesis w0 -> history w0 w -> rewards_inv w.
Proof.
  intros g. apply (history_ind2 w0 rewards_inv).
  - destruct g as (h0 & st & lg & _ & pl & rw & al & ac & wk & rt & rr & _).
    assert (C : current_term w0 = -1) by (unfold current_term; rewrite st; reflexivity).
    split; [|split].
    + unfold budget. rewrite C. pose proof (limit_pos w0). repeat split; lia.
    + unfold room. split; [rewrite al; unfold MaxPlanetCount; lia|]. split; [intros id p; rewrite pl; discriminate|].
      exists []. split; [|lia]. split; [constructor|]. split; [|cbn; lia]. intros id. rewrite pl. split; [intros [] | congruence].
    + intros t id. rewrite lg. cbn. split; [lia | congruence].
  - intros v rev _ i Bd. apply plain_block; auto.
  - intros v rev x u w' _ i Bd B. eapply base_rewards; eauto.
  - intros v from c u w' _ (b & r & o) H. split; [eapply exec_budget; eauto|]. split; [eapply exec_room; eauto | eapply exec_once; eauto].
  - intros v from to x u w' _ (b & r & o) H. apply (transfer_quiet _ _ _ _ _ _ _ eq_refl) in H.
    assert (E : height w' = height v /\ issue_start w' = issue_start v /\ cfg w' = cfg v /\ pview w' = pview v /\
                rewards w' = rewards v /\ offers (log w') = offers (log v) /\ reward_view w' = reward_view v).
    { unfold xview, oview in H. injection H as H. unfold cfg, pview, reward_view. repeat split; congruence. }
    destruct E as (E1 & E2 & E3 & E4 & E5 & E6 & E7).
    assert (TV : tview w' = tview v).
    { unfold tview, current_term, get_term_period, get_issue_limit. unfold cfg in E3. injection E3 as -> _ -> _. rewrite E1, E2. reflexivity. }
    split; [eapply budget_same; eauto|]. split; [eapply room_same; eauto | eapply once_same; eauto];
      intros; unfold reward_of; rewrite E5; reflexivity.
Qed.
