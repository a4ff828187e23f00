(** Claims: what is taken from the planets' records reaches the claimer; the claim rate. *)
From Verif Require Import Model.HvhState Model.HvhExt Spec.HvhSpec Proof.HvhFacts Proof.HvhSupply Proof.HvhTreasury
  Proof.HvhTerms Proof.HvhIssue Proof.HvhRewards Proof.HvhLive.
From Coq Require Import ZArith List Bool Lia ZifyBool.
Import ListNotations.
Open Scope Z_scope.

Definition unclaimed (w : world) (ids : list Z) : Z := sum_over (fun id => pr_current (reward_of w id)) ids.

(** [b] balances and records before; [paid] nothing lost so far. *)
Definition paid (v : world) (owner : addr) (l : list Z) (w : world) : Prop :=
  cov 0 w /\ planets w = planets v /\
  bal w (a_id owner) + unclaimed w l = bal v (a_id owner) + unclaimed v l /\
  bal w PT - unclaimed w l = bal v PT - unclaimed v l /\
  (forall id, ~ In id l -> rewards w id = rewards v id) /\
  (forall id, (forall p, planets v id = Some p -> addr_eqb owner (p_owner p) = false) -> rewards w id = rewards v id).

Lemma addr_eqb_true a b : addr_eqb a b = true -> a = b.
Proof.
  unfold addr_eqb. destruct a, b. cbn. intros H. apply andb_true_iff in H as [H1 H2]. apply Bool.eqb_prop in H1.
  f_equal; [auto | lia].
Qed.

Lemma claim_loop_paid v owner l ts ids : NoDup l -> a_id owner <> PT -> (forall id, In id ids -> In id l) ->
  keeps (paid v owner l) (claim_loop ts owner ids).
Proof.
  intros nd ne. induction ids as [|id r IH]; intros sub w u w' p H; cbn in H; [hstep H; auto|].
  assert (IH' := IH ltac:(intros; apply sub; right; auto)). clear IH.
  destruct (state_claim_planet_reward id owner w) as [[c|e] w1] eqn:C.
  2:{ apply claim_er in C as ->. eapply IH'; eauto. }
  assert (p0 := p). destruct p0 as (cv & PL & B1 & B2 & R1 & R2).
  pose proof (claim_cov _ _ _ _ _ cv C) as [n m1]. pose proof (claim_paid _ _ _ _ _ cv C) as [w2 T].
  apply claim_inv in C as (pl & i0 & P & O & _ & C).
  destruct (0 <? c) eqn:K.
  2:{ assert (c = 0) by lia. destruct C as [[_ ->] | [? _]]; [|lia]. eapply IH'; eauto. }
  rewrite T in H. destruct C as [[? _] | [le E]]; [lia|].
  eapply IH'; [|exact H].
  assert (m2 : cov 0 w2) by (eapply transfer_pt_cov in T; [|exact m1]; eapply cov_weaken; [exact T | lia]).
  assert (U1 : unclaimed w1 l = unclaimed w l - c).
  { rewrite E. unfold unclaimed. rewrite sum_reward_upd by auto. destruct (in_dec Z.eq_dec id l) as [_|q]; [cbn [pr_current]; lia|].
    destruct q. apply sub. left. auto. }
  apply transfer_inv in T as [_ [[_ Q] | (le2 & nq & ->)]].
  { destruct Q as [Q|Q]; [lia|]. exfalso. apply addr_eqb_true in Q. apply ne. rewrite <- Q. reflexivity. }
  match goal with |- paid v owner l ?z => set (z0 := z) end.
  assert (UZ : unclaimed z0 l = unclaimed w l - c) by exact U1.
  unfold paid. split; [exact m2|]. rewrite UZ. subst z0.
  cbn [planets log set_log moved set_bal rewards bal].
  assert (BW : bal w1 = bal w) by (rewrite E; reflexivity).
  split; [rewrite E; exact PL|].
  change (a_id PublicTreasury) with PT. rewrite BW. split; [|split; [|split]].
  - rewrite upd_same. rewrite upd_other by auto. lia.
  - rewrite upd_other by auto. rewrite upd_same. lia.
  - intros x nx. rewrite E. cbn [rewards set_rewards]. rewrite upd_other; [auto|]. intros ->. apply nx, sub. left. auto.
  - intros x nx. rewrite E. cbn [rewards set_rewards]. rewrite upd_other; [auto|]. intros ->. rewrite PL in P. rewrite (nx pl P) in O. discriminate.
Qed.

Lemma claims_paid v owner l ids u w' : cov 0 v -> NoDup l -> a_id owner <> PT -> (forall id, In id ids -> In id l) ->
  claim_planet_reward owner ids v = (Ok u, w') -> paid v owner l w'.
Proof.
  intros cv nd ne sub H. unfold claim_planet_reward in H. destruct (_ <? _); [hstep H|].
  hbind H x w1 H1. hstep H1. destruct (negb _); [hstep H|]. eapply claim_loop_paid; [exact nd | exact ne | exact sub | | exact H].
  unfold paid. repeat split; auto; apply cv.
Qed.

(** ** The claim rate *)
Definition rate_ok (w : world) : Prop :=
  claim_rate w = 0 \/ exists n d, valid_claim_rate n d = true /\ claim_rate w = Z.lor (Z.shiftl n 16) d.

Lemma valid_rate n d : valid_claim_rate n d = true <-> 1 <= d <= 10000 /\ 0 <= n <= d.
Proof.
  unfold valid_claim_rate. destruct (_ || _) eqn:A; [lia|]. destruct (n <? 0) eqn:B; [lia|]. destruct (d <? n) eqn:C; lia.
Qed.
Lemma pack_rate n d : 0 <= n -> 0 <= d < 65536 ->
  Z.lor (Z.shiftl n 16) d = n * 65536 + d /\
  Z.shiftr (Z.lor (Z.shiftl n 16) d) 16 = n /\ Z.land (Z.lor (Z.shiftl n 16) d) 65535 = d.
Proof.
  intros N D. assert (E : Z.lor (Z.shiftl n 16) d = n * 65536 + d).
  { assert (L0 : Z.land (Z.shiftl n 16) d = 0).
    2:{ rewrite <- Z.lxor_lor by exact L0. rewrite <- Z.add_nocarry_lxor by exact L0.
        rewrite Z.shiftl_mul_pow2 by lia. change (2 ^ 16) with 65536. lia. }
    - apply Z.bits_inj'. intros k hk. rewrite Z.land_spec, Z.bits_0. destruct (Z_lt_le_dec k 16) as [L|L].
      + rewrite Z.shiftl_spec_low by lia. reflexivity.
      + rewrite (Z.bits_above_log2 d k); [apply andb_false_r | lia |].
        destruct (Z.eq_dec d 0) as [-> | nz]; [cbn; lia|]. apply Z.log2_lt_pow2; [lia|].
        apply Z.lt_le_trans with (2 ^ 16); [cbn; lia | apply Z.pow_le_mono_r; lia]. }
  split; [exact E|]. rewrite E. split.
  - rewrite Z.shiftr_div_pow2 by lia. change (2 ^ 16) with 65536. symmetry. apply (Z.div_unique_pos _ _ _ d); lia.
  - change 65535 with (Z.ones 16). rewrite Z.land_ones by lia. change (2 ^ 16) with 65536. symmetry. apply (Z.mod_unique_pos _ _ n); lia.
Qed.
Lemma rate_valid w : rate_ok w -> valid_claim_rate (fst (get_claim_rate w)) (snd (get_claim_rate w)) = true.
Proof.
  intros [E | (n & d & V & E)]; unfold get_claim_rate, int_or; rewrite E; [reflexivity|].
  assert (V' := V). apply valid_rate in V'. destruct (pack_rate n d) as (P1 & P2 & P3); [lia | lia|].
  destruct (_ <=? 0) eqn:K; [lia|]. cbn [fst snd]. change 0xffff with 65535. rewrite P2, P3. exact V.
Qed.
Lemma set_rate_get n d w u w' : state_set_claim_rate n d w = (Ok u, w') ->
  valid_claim_rate n d = true /\ get_claim_rate w' = (n, d) /\ rate_ok w'.
Proof.
  intros H. unfold state_set_claim_rate in H. destruct (valid_claim_rate n d) eqn:V; [|hstep H]. hstep H.
  split; [reflexivity|]. assert (V' := V). apply valid_rate in V'. destruct (pack_rate n d) as (P1 & P2 & P3); [lia | lia|]. split.
  - unfold get_claim_rate, int_or. cbn [claim_rate set_claim_rate]. destruct (_ <=? 0) eqn:K; [lia|].
    change 0xffff with 65535. rewrite P2, P3. reflexivity.
  - right. exists n, d. auto.
Qed.

Lemma exec_rate from c : keeps rate_ok (exec from c).
Proof.
  destruct c.
  10:{ intros w u w' r H. cbn [exec] in H. hbind H q w1 H1. apply set_rate_get in H as (_ & _ & H). exact H. }
  all: intros w u w' r H; match type of H with exec _ ?cc _ = _ =>
    assert (K : keeps (fun z => claim_rate z = claim_rate w) (exec from cc)) by (kunf; kx) end;
    apply K in H; [|reflexivity]; unfold rate_ok in *; rewrite H; exact r.
Qed.
Lemma history_rate w0 w : genesis w0 -> history w0 w -> rate_ok w.
Proof.
  intros g. apply (history_ind2 w0 rate_ok).
  - left. apply g.
  - intros v rev _ r _. exact r.
  - intros v rev x u w' _ r _ B. apply base_inv in B as (w2 & F & _ & _ & _ & _ & B).
    assert (R : claim_rate w' = claim_rate v).
    { assert (R2 : claim_rate w2 = claim_rate (next_block rev v)) by (unfold fixed in F; congruence).
      destruct B as [[_ B] | [_ ->]]; [|exact R2]. apply on_term_start_inv in B. cbv zeta in B. destruct B as (_ & _ & F' & _).
      transitivity (claim_rate w2); [unfold fixed in F'; congruence | exact R2]. }
    unfold rate_ok in *. rewrite R. exact r.
  - intros v from c u w' _ r H. eapply exec_rate; eauto.
  - intros v from to x u w' _ r H. assert (K : keeps (fun z => claim_rate z = claim_rate v) (transfer from to x)).
    { unfold transfer, add_balance, emit. ks. }
    apply K in H; [|reflexivity]. unfold rate_ok in *. rewrite H. exact r.
Qed.

(** ** A start, once reached, is never moved *)
Lemma later_start w w' : history w w' -> is_issue_started (height w) (issue_start w) = true ->
  issue_start w' = issue_start w /\ height w <= height w' /\ is_issue_started (height w') (issue_start w') = true.
Proof.
  intros h s. revert w' h. apply (history_ind2 w (fun w' => issue_start w' = issue_start w /\ height w <= height w' /\ is_issue_started (height w') (issue_start w') = true)).
  - split; [auto|]. split; [lia | auto].
  - intros v rev _ (a & b & c) _. change (issue_start v = issue_start w /\ height w <= height v + 1 /\ is_issue_started (height v + 1) (issue_start v) = true).
    rewrite started_iff in *. repeat split; [auto | lia | lia].
  - intros v rev x u v' _ (a & b & c) _ B. apply base_inv in B as (w2 & F & _ & _ & _ & _ & B).
    assert (F' : fixed v' = fixed (next_block rev v)).
    { destruct B as [[_ B] | [_ ->]]; [|exact F]. apply on_term_start_inv in B. cbv zeta in B. destruct B as (_ & _ & F' & _). congruence. }
    assert (H1 : height v' = height v + 1) by (change (height v + 1) with (height (next_block rev v)); unfold fixed in F'; congruence).
    assert (H2 : issue_start v' = issue_start v) by (change (issue_start v) with (issue_start (next_block rev v)); unfold fixed in F'; congruence).
    rewrite H1, H2. rewrite started_iff in *. repeat split; [auto | lia | lia].
  - intros v from c u v' _ (a & b & d) H. pose proof (exec_xview _ _ _ _ _ _ eq_refl H) as X. unfold xview in X.
    assert (H1 : height v' = height v) by congruence. apply exec_start in H as [H | [H _]]; [|congruence]. rewrite H1, H. auto.
  - intros v from to x u v' _ (a & b & d) H. apply (transfer_quiet _ _ _ _ _ _ _ eq_refl) in H. unfold xview in H.
    assert (H1 : height v' = height v) by congruence. assert (H2 : issue_start v' = issue_start v) by congruence. rewrite H1, H2. auto.
Qed.

Lemma history_start_nonneg w0 w : genesis w0 -> history w0 w -> 0 <= height w /\ 0 <= issue_start w.
Proof.
  intros g. apply (history_ind2 w0 (fun w => 0 <= height w /\ 0 <= issue_start w)).
  - destruct g as (a & b & _). lia.
  - intros v rev _ (a & b) _. change (0 <= height v + 1 /\ 0 <= issue_start v). lia.
  - intros v rev x u v' _ (a & b) _ B. apply base_inv in B as (w2 & F & _ & _ & _ & _ & B).
    assert (F' : fixed v' = fixed (next_block rev v)).
    { destruct B as [[_ B] | [_ ->]]; [|exact F]. apply on_term_start_inv in B. cbv zeta in B. destruct B as (_ & _ & F' & _). congruence. }
    assert (H1 : height v' = height v + 1) by (change (height v + 1) with (height (next_block rev v)); unfold fixed in F'; congruence).
    assert (H2 : issue_start v' = issue_start v) by (change (issue_start v) with (issue_start (next_block rev v)); unfold fixed in F'; congruence).
    lia.
  - intros v from c u v' _ (a & b) H. pose proof (exec_xview _ _ _ _ _ _ eq_refl H) as X. unfold xview in X.
    assert (H1 : height v' = height v) by congruence. apply exec_start in H as [H | [_ H]]; lia.
  - intros v from to x u v' _ (a & b) H. apply (transfer_quiet _ _ _ _ _ _ _ eq_refl) in H. unfold xview in H.
    assert (H1 : height v' = height v) by congruence. assert (H2 : issue_start v' = issue_start v) by congruence. lia.
Qed.

(** Terms never go backwards. *)
Lemma later_term w w' : history w w' -> current_term w <= current_term w'.
Proof.
  apply (history_ind2 w (fun w' => current_term w <= current_term w')).
  - lia.
  - intros v rev _ a _. rewrite next_term. destruct (boundary _); lia.
  - intros v rev x u v' _ a _ B. apply base_inv in B as (w2 & F & _ & _ & _ & _ & B).
    assert (F' : fixed v' = fixed (next_block rev v)).
    { destruct B as [[_ B] | [_ ->]]; [|exact F]. apply on_term_start_inv in B. cbv zeta in B. destruct B as (_ & _ & F' & _). congruence. }
    rewrite (fixed_term _ _ F'), next_term. destruct (boundary _); lia.
  - intros v from c u v' _ a H. rewrite (exec_term _ _ _ _ _ H). auto.
  - intros v from to x u v' _ a H. apply (transfer_quiet _ _ _ _ _ _ _ eq_refl) in H. unfold xview, cfg in H.
    assert (H1 : height v' = height v) by congruence. assert (H2 : issue_start v' = issue_start v) by congruence.
    assert (H3 : term_period v' = term_period v) by congruence.
    unfold current_term, get_term_period. rewrite H1, H2, H3. exact a.
Qed.

(** ** What a proposer proposes *)
Lemma get_issue_amount_eq w : get_issue_amount w (height w) (issue_start w) = if boundary w then honest w else 0.
Proof.
  unfold get_issue_amount, boundary, honest. destruct (is_issue_started (height w) (issue_start w)) eqn:S0; cbn [negb andb]; [|reflexivity].
  assert (S1 := S0). rewrite started_iff in S1. pose proof (period_pos w). rewrite Z.rem_mod_nonneg by lia.
  destruct (_ mod _ =? 0); cbn [negb]; [|reflexivity]. rewrite quot_current by auto. reflexivity.
Qed.
Lemma honest_pos w0 w rev : genesis w0 -> history w0 w -> boundary (next_block rev w) = true ->
  1 <= first_amount w0 -> 1 <= honest (next_block rev w).
Proof.
  intros g h Bd A. destruct (history_issue w0 w g h) as (_ & _ & E).
  assert (P : 1 <= big_or (issue_amount w) InitIssueAmount) by (rewrite E; apply year_amount_pos; auto).
  unfold honest, issue_amount_by_ts. change (issue_amount (next_block rev w)) with (issue_amount w).
  destruct (_ && _); [|exact P]. cbv zeta. destruct (0 <? _); [|exact P]. cbn [fst].
  pose proof (reduced_pos _ P). unfold reduced, ReductionNum, ReductionDenom in *. lia.
Qed.
