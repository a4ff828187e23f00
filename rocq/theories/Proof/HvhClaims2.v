(** What exactly a claim leaves, and a report credits. *)
From Verif Require Import Model.HvhState Model.HvhExt Spec.HvhSpec Proof.HvhFacts Proof.HvhSupply Proof.HvhTreasury
  Proof.HvhTerms Proof.HvhIssue Proof.HvhRewards Proof.HvhLive Proof.HvhClaims.
From Coq Require Import ZArith List Bool Lia ZifyBool.
Import ListNotations.
Open Scope Z_scope.

Definition locked_of (w : world) (p : planet) (pr : planet_reward) : Z :=
  locked_share (p_private p) (fst (get_claim_rate w)) (snd (get_claim_rate w)) (pr_total pr).

Lemma claimable_exact w p pr : rate_ok w -> 0 <= pr_current pr <= pr_total pr ->
  claimable w p pr = Ok (pr_current pr - Z.min (pr_current pr) (locked_of w p pr)) /\ 0 <= locked_of w p pr <= pr_total pr.
Proof.
  intros r b. pose proof (rate_valid w r) as V. unfold claimable, locked_of, locked_share in *.
  destruct (get_claim_rate w) as [n d]. cbn [fst snd] in *. assert (V' := V). apply valid_rate in V'.
  assert (L : 0 <= (d - n) * pr_total pr / d <= pr_total pr).
  { split; [apply Z.div_pos; [apply Z.mul_nonneg_nonneg; lia | lia]|].
    apply Z.div_le_upper_bound; [lia|]. apply Z.mul_le_mono_nonneg_r; lia. }
  destruct (p_private p); cbn [negb orb].
  - destruct (pr_current pr =? 0) eqn:C0. { split; [f_equal; lia | lia]. }
    rewrite V. cbn [negb]. destruct (n <? d) eqn:N.
    + split; [|exact L]. f_equal. match goal with |- (if ?x <? 0 then _ else _) = _ => destruct (x <? 0) eqn:K end; lia.
    + assert (E : (d - n) * pr_total pr / d = 0) by (replace (d - n) with 0 by lia; reflexivity). rewrite E. split; [f_equal; lia | lia].
  - split; [f_equal; lia | lia].
Qed.

(** After the loop: a record of the claimer's keeps exactly the locked part. *)
Definition settled (v : world) (owner : addr) (id : Z) (w : world) : Prop :=
  pr_total (reward_of w id) = pr_total (reward_of v id) /\ pr_last_tn (reward_of w id) = pr_last_tn (reward_of v id) /\
  forall p, planets v id = Some p ->
    pr_current (reward_of w id) = Z.min (pr_current (reward_of v id)) (locked_of v p (reward_of v id)).

Definition still (v w : world) : Prop := cov 0 w /\ planets w = planets v /\ claim_rate w = claim_rate v.
Lemma locked_same v w p pr pr' : claim_rate w = claim_rate v -> pr_total pr' = pr_total pr -> locked_of w p pr' = locked_of v p pr.
Proof. unfold locked_of, get_claim_rate. intros -> ->. reflexivity. Qed.

Lemma claim_step v owner id w c w1 : rate_ok v -> still v w -> state_claim_planet_reward id owner w = (Ok c, w1) ->
  exists w2, (if 0 <? c then transfer PublicTreasury owner c w1 else (Ok tt, w1)) = (Ok tt, w2) /\ still v w2 /\
    (forall x, x <> id -> rewards w2 x = rewards w x) /\ settled w owner id w2.
Proof.
  intros ro (cv & PL & CR) C. pose proof (claim_cov _ _ _ _ _ cv C) as [n m1]. pose proof (claim_paid _ _ _ _ _ cv C) as [w2 T].
  apply claim_inv in C as (pl & i0 & P & O & CL & C).
  assert (rw : rate_ok w) by (unfold rate_ok in *; rewrite CR; exact ro).
  assert (bd : 0 <= pr_current (reward_of w id) <= pr_total (reward_of w id)) by apply cv.
  destruct (claimable_exact w pl _ rw bd) as [CE LB]. rewrite CE in CL. injection CL as CL.
  destruct (0 <? c) eqn:K.
  2:{ exists w1. split; [reflexivity|]. destruct C as [[_ ->] | [? _]]; [|lia]. split; [repeat split; auto; apply cv|]. split; [auto|].
      unfold settled. split; [auto|]. split; [auto|]. intros p Hp. assert (pl = p) by congruence. subst p. lia. }
  destruct C as [[? _] | [le E]]; [lia|].
  exists w2. split; [exact T|].
  assert (m2 : cov 0 w2) by (eapply transfer_pt_cov in T; [|exact m1]; eapply cov_weaken; [exact T | lia]).
  apply (transfer_quiet _ _ _ _ _ _ _ eq_refl) in T as Q. unfold oview in Q.
  assert (RW : rewards w2 = rewards w1).
  { apply transfer_inv in T as [_ [[-> _] | (_ & _ & ->)]]; reflexivity. }
  assert (PW : planets w2 = planets w1 /\ claim_rate w2 = claim_rate w1).
  { apply transfer_inv in T as [_ [[-> _] | (_ & _ & ->)]]; split; reflexivity. }
  destruct PW as [PW CW]. rewrite E in RW, PW, CW. cbn [rewards planets claim_rate set_rewards] in RW, PW, CW.
  split; [split; [exact m2|]; split; congruence|]. rewrite RW. split; [intros x ne; rewrite upd_other by auto; reflexivity|].
  unfold settled, reward_of at 1 3 5. rewrite RW, upd_same. cbn [pr_total pr_last_tn pr_current].
  split; [auto|]. split; [auto|]. intros p Hp. assert (pl = p) by congruence. subst p. lia.
Qed.

Lemma settled_again v owner id w w' : rate_ok v -> cov 0 v -> still v w -> settled v owner id w -> settled w owner id w' -> settled v owner id w'.
Proof.
  intros ro cv0 (cv & PL & CR) (A1 & A2 & A3) (B1 & B2 & B3). unfold settled. split; [congruence|]. split; [congruence|].
  intros p Hp. rewrite (B3 p) by congruence. rewrite (A3 p Hp). rewrite (locked_same v w p (reward_of v id)) by auto. lia.
Qed.

Lemma claim_loop_settled v owner ts ids : rate_ok v -> cov 0 v -> forall w u w',
  still v w -> (forall id, rewards w id = rewards v id \/ settled v owner id w) ->
  claim_loop ts owner ids w = (Ok u, w') ->
  still v w' /\ forall id, (rewards w' id = rewards v id \/ settled v owner id w') /\
    (settled v owner id w -> settled v owner id w') /\
    (In id ids -> 0 <= id -> forall p, planets v id = Some p -> p_owner p = owner -> settled v owner id w').
Proof.
  intros ro cv0. induction ids as [|i r IH]; intros w u w' st inv H; cbn [claim_loop] in H.
  { hstep H. split; [auto|]. intros id. split; [auto|]. split; [auto|]. intros []. }
  destruct (state_claim_planet_reward i owner w) as [[c|e] w1] eqn:C.
  - destruct (claim_step v owner i w c w1 ro st C) as (w2 & T & st2 & OT & SE).
    assert (G : exists w3, still v w3 /\ (forall id, rewards w3 id = rewards w2 id) /\ claim_loop ts owner r w3 = (Ok u, w')).
    { destruct (0 <? c) eqn:K.
      - rewrite T in H. hbind H q w3 H3. hstep H3. eexists. split; [|split; [|exact H]]; [exact st2 | reflexivity].
      - injection T as ->. exists w2. auto. }
    destruct G as (w3 & st3 & RE & H3).
    assert (R3 : forall id, reward_of w3 id = reward_of w2 id) by (intros id; unfold reward_of; rewrite RE; auto).
    assert (S3 : settled v owner i w3).
    { assert (settled v owner i w2).
      { destruct (inv i) as [Hi | Hi].
        - destruct SE as (S1 & S2 & S4). unfold settled. assert (EQ : reward_of w i = reward_of v i) by (unfold reward_of; rewrite Hi; auto).
          rewrite EQ in *. split; [auto|]. split; [auto|]. intros p Hp. destruct st as (_ & PL & CR).
          rewrite (S4 p) by congruence. rewrite (locked_same v w p (reward_of v i)) by auto. reflexivity.
        - eapply settled_again; [exact ro | exact cv0 | exact st | exact Hi | exact SE]. }
      unfold settled in *. rewrite R3. auto. }
    assert (K3 : forall id, settled v owner id w -> settled v owner id w3).
    { intros id Hs. destruct (Z.eq_dec id i) as [-> | ne]; [exact S3|]. unfold settled in *. rewrite R3.
      unfold reward_of at 1 3 5 in Hs. unfold reward_of at 1 3 5. rewrite (OT id ne). exact Hs. }
    assert (I3 : forall id, rewards w3 id = rewards v id \/ settled v owner id w3).
    { intros id. destruct (Z.eq_dec id i) as [-> | ne]; [right; exact S3|]. destruct (inv id) as [Hi | Hi]; [left; rewrite RE, OT; auto | right; auto]. }
    destruct (IH w3 u w' st3 I3 H3) as [st' J]. split; [exact st'|]. intros id. destruct (J id) as (J1 & J2 & J3).
    split; [auto|]. split; [auto|]. intros [-> | Hi] i0 p Hp Ho; [auto | eapply J3; eauto].
  - assert (w1 = w) by (apply claim_er in C; auto). subst w1. destruct (IH w u w' st inv H) as [st' J]. split; [exact st'|].
    intros id. destruct (J id) as (J1 & J2 & J3). split; [auto|]. split; [auto|]. intros [-> | Hi] i0 p Hp Ho; [|eapply J3; eauto].
    exfalso. destruct st as (cv & PL & CR). unfold state_claim_planet_reward in C.
    assert (GP : state_get_planet id w = (Ok p, w)).
    { unfold state_get_planet. destruct (id <? 0) eqn:K; [lia|]. erewrite bind_eq by reflexivity. rewrite PL, Hp. reflexivity. }
    erewrite bind_eq in C by exact GP.
    assert (AE : addr_eqb owner (p_owner p) = true) by (rewrite Ho; unfold addr_eqb; rewrite Bool.eqb_reflx, Z.eqb_refl; reflexivity).
    rewrite AE in C. cbn [negb] in C. erewrite bind_eq in C by reflexivity.
    assert (rw : rate_ok w) by (unfold rate_ok in *; rewrite CR; exact ro).
    assert (bd : 0 <= pr_current (reward_of w id) <= pr_total (reward_of w id)) by apply cv.
    destruct (claimable_exact w p _ rw bd) as [CE LB].
    set (cc := pr_current _ - _) in *. 
    erewrite bind_eq in C by (rewrite CE; reflexivity).
    destruct (0 <? cc) eqn:K; unfold when in C.
    + unfold reward_claim in C. destruct (cc <? 0) eqn:K1; [lia|]. destruct (pr_current (reward_of w id) <? cc) eqn:K2; [lia|].
      cbn in C. discriminate C.
    + cbn in C. discriminate C.
Qed.

Lemma claims_exact w0 w from ids u w' : genesis w0 -> history w0 w ->
  exec from (ClaimPlanetReward ids) w = (Ok u, w') ->
  forall id p, In id ids -> 0 <= int64 id -> planets w (int64 id) = Some p -> p_owner p = from ->
    pr_total (reward_of w' (int64 id)) = pr_total (reward_of w (int64 id)) /\
    pr_last_tn (reward_of w' (int64 id)) = pr_last_tn (reward_of w (int64 id)) /\
    pr_current (reward_of w' (int64 id)) = Z.min (pr_current (reward_of w (int64 id))) (locked_of w p (reward_of w (int64 id))).
Proof.
  intros g h H id p Hi i0 Hp Ho. cbn [exec] in H. unfold claim_planet_reward in H.
  match type of H with context [if ?b then _ else _] => destruct b; [hstep H|] end.
  hbind H x w1 H1. hstep H1. destruct (negb _); [hstep H|].
  pose proof (history_cov w0 w g h) as cv.
  destruct (claim_loop_settled w (p_owner p) _ _ (history_rate w0 w g h) cv w u w' ltac:(repeat split; auto; apply cv) ltac:(auto) H) as [_ J].
  destruct (J (int64 id)) as (_ & _ & J3).
  destruct (J3 ltac:(apply in_map; exact Hi) i0 p Hp eq_refl) as (S1 & S2 & S3). auto.
Qed.
