(* The consensus engine does not panic, and its recursion is shallow (for
   C55). *)
From Coq Require Import ZArith List Bool Arith Lia.
From Verif Require Import Model.Votes Model.Consensus.
Import ListNotations.
Open Scope Z_scope.

Section Panic.
Variable C : chain.
Variable me : option nat.

Definition undecodable : Prop := exists id, c_decodes C id = false.
Definition dec_ok (p : parts) : Prop :=
  (p_complete p = true -> p_block p = true \/ undecodable) /\ (p_block p = true -> p_complete p = true).
Definition have (p : parts) : Prop := p_block p = true /\ p_complete p = true.

(* without the pending import *)
Record W (s : node) : Prop := {
  w_halt : s_halt s = None \/ (s_halt s = Some Upgrade /\ undecodable);
  w_lock : forall p, s_locked s = Some p -> have p;
  w_cur : forall p, s_cur s = Some p -> dec_ok p;
  w_le : forall r id, s_import s = Some (r, id) -> r <= s_round s;
  w_imp : forall r id, s_import s = Some (r, id) -> s_round s = r -> (4 <= step_num (s_step s))%nat
}.

Definition I1 (s : node) : Prop := forall r id, s_import s = Some (r, id) -> s_round s = r ->
  (step_num (s_step s) <= 5)%nat -> exists p, s_cur s = Some p /\ p_block p = true.

Definition G (s : node) : Prop := W s /\ (gone s = false -> I1 s).

Lemma I1_late : forall s, (6 <= step_num (s_step s))%nat -> I1 s.
Proof. intros s H r id _ _ L. lia. Qed.

Lemma step_eqb_num : forall a b, step_eqb a b = true <-> step_num a = step_num b.
Proof. intros. apply Nat.eqb_eq. Qed.
Lemma step_num_inj : forall a b, step_num a = step_num b -> a = b.
Proof. destruct a, b; cbn; congruence. Qed.
Lemma step_ltb_num : forall a b, step_ltb a b = true <-> (step_num a < step_num b)%nat.
Proof. intros. apply Nat.ltb_lt. Qed.
Lemma step_leb_num : forall a b, step_leb a b = true <-> (step_num a <= step_num b)%nat.
Proof. intros. apply Nat.leb_le. Qed.

Lemma begin_ok : forall st s, st <> NewHeight -> st <> NewRound -> (step_num (s_step s) < step_num st)%nat ->
  begin_step st s = with_step st s.
Proof.
  intros st s A B H. unfold begin_step. apply step_ltb_num in H.
  destruct st; try congruence; rewrite H; reflexivity.
Qed.

Lemma W_step : forall st s, W s -> (4 <= step_num st)%nat \/ (s_import s = None) \/
  (step_num (s_step s) < 4)%nat -> W (with_step st s).
Proof.
  intros st s [a b c d e] H. constructor; cbn; auto. intros r id Hi Hr.
  destruct H as [H|[H|H]]; [exact H|congruence|]. specialize (e r id Hi Hr). lia.
Qed.

Lemma gone_false : forall s, gone s = false -> s_halt s = None /\ s_final s = None.
Proof. intros s. unfold gone. destruct (s_halt s), (s_final s); intros; try discriminate; auto. Qed.

Lemma W_final : forall s f, W s -> W (with_final f s).
Proof. intros s f [a b c d e]. constructor; cbn; auto. Qed.
Lemma W_hvs : forall s h, W s -> W (with_hvs h s).
Proof. intros s h [a b c d e]. constructor; cbn; auto. Qed.
Lemma W_crnd : forall s h, W s -> W (with_crnd h s).
Proof. intros s h [a b c d e]. constructor; cbn; auto. Qed.
Lemma W_prop : forall s h, W s -> W (with_prop h s).
Proof. intros s h [a b c d e]. constructor; cbn; auto. Qed.
Lemma W_pol : forall s h, W s -> W (with_pol h s).
Proof. intros s h [a b c d e]. constructor; cbn; auto. Qed.
Lemma W_emit : forall s x, W s -> W (emit x s).
Proof. intros s x [a b c d e]. constructor; cbn; auto. Qed.
Lemma W_cur : forall s c, W s -> (forall p, c = Some p -> dec_ok p) -> W (with_cur c s).
Proof. intros s c0 [a b c d e] H. constructor; cbn; auto. Qed.
Lemma W_lock : forall s l r, W s -> (forall p, l = Some p -> have p) -> W (with_lock l r s).
Proof. intros s l r [a b c d e] H. constructor; cbn; auto. Qed.
Lemma W_upgrade : forall s, W s -> undecodable -> W (halted Upgrade s).
Proof. intros s [a b c d e] H. constructor; cbn; auto. Qed.
Lemma W_noimport : forall s, W s -> W (with_import None s).
Proof. intros s [a b c d e]. constructor; cbn; auto; discriminate. Qed.

Lemma wal_same : forall E w e s, s_halt (wal E w e s) = s_halt s /\ s_locked (wal E w e s) = s_locked s /\
  s_cur (wal E w e s) = s_cur s /\ s_import (wal E w e s) = s_import s /\ s_round (wal E w e s) = s_round s /\
  s_step (wal E w e s) = s_step s /\ s_final (wal E w e s) = s_final s /\ s_hvs (wal E w e s) = s_hvs s
  /\ s_lround (wal E w e s) = s_lround s.
Proof. intros. unfold wal. destruct (e_disk E); repeat split; reflexivity. Qed.
Lemma sync_same : forall E w s, s_halt (wal_sync E w s) = s_halt s /\ s_locked (wal_sync E w s) = s_locked s /\
  s_cur (wal_sync E w s) = s_cur s /\ s_import (wal_sync E w s) = s_import s /\ s_round (wal_sync E w s) = s_round s /\
  s_step (wal_sync E w s) = s_step s /\ s_final (wal_sync E w s) = s_final s /\ s_hvs (wal_sync E w s) = s_hvs s
  /\ s_lround (wal_sync E w s) = s_lround s.
Proof. intros. unfold wal_sync. destruct (e_disk E); repeat split; reflexivity. Qed.

Lemma W_wal : forall E w e s, W s -> W (wal E w e s).
Proof. intros. unfold wal. destruct (e_disk E); [apply W_emit|]; auto. Qed.
Lemma W_sync : forall E w s, W s -> W (wal_sync E w s).
Proof. intros. unfold wal_sync. destruct (e_disk E); [apply W_emit|]; auto. Qed.

Lemma set_id_dec : forall id c p, (forall q, c = Some q -> dec_ok q) -> set_id id c = Some p -> dec_ok p.
Proof.
  intros id c p H E. unfold set_id in E. destruct c as [q|].
  - destruct (Z.eqb (p_id q) id); [apply H; exact E|]. injection E as <-. split; intros F; discriminate.
  - injection E as <-. split; intros F; discriminate.
Qed.

Lemma dec_new : forall id v, dec_ok (mkParts id true (c_decodes C id) v).
Proof.
  intros id v. split; [|reflexivity]. intros _. cbn.
  destruct (c_decodes C id) eqn:E; [left; reflexivity|right; exists id; exact E].
Qed.
Lemma have_dec : forall p, have p -> dec_ok p.
Proof. intros p (A & B). split; auto. Qed.

Section WithEnv.
Variable E : env.
Notation go := (run C me E).

Lemma go_S : forall f c s, go (S f) c s = if gone s then s else do_call C me E (go f) c s.
Proof. reflexivity. Qed.

(* ---- commit ---- *)
Lemma finish_W : forall s p, W s -> s_cur s = Some p -> p_complete p = true -> W (finish s).
Proof.
  intros s p H Ec Hc. unfold finish. rewrite Ec. pose proof (proj1 (w_cur s H p Ec) Hc) as D.
  destruct (p_block p) eqn:Eb; [apply W_final; exact H|]. destruct D as [D|D]; [discriminate|]. apply W_upgrade; auto.
Qed.

Lemma finish_step : forall s, s_step (finish s) = s_step s.
Proof. intros s. unfold finish. destruct (s_cur s) as [p|]; [destruct (p_block p)|]; reflexivity. Qed.

Lemma G_late : forall s, W s -> (6 <= step_num (s_step s))%nat -> G s.
Proof. intros s H L. split; [exact H|]. intros _. apply I1_late. exact L. Qed.

Lemma run_gone : forall f c s, W s -> (gone s = false -> G (do_call C me E (go f) c s)) -> G (go (S f) c s).
Proof.
  intros f c s H K. rewrite go_S. destruct (gone s) eqn:Eg; [|apply K; reflexivity].
  split; [exact H|]. rewrite Eg. discriminate.
Qed.

Lemma commit_G : forall f r id s, W s -> (step_num (s_step s) < 8)%nat -> G (go (S f) (CCommit r id) s).
Proof.
  intros f r id s H L. apply run_gone; [exact H|]. intros Eg.
  cbn [do_call]. unfold enter_commit. rewrite begin_ok by (try discriminate; exact L).
  unfold andthen. assert (Eg' : gone (with_step Commit s) = false) by exact Eg. rewrite Eg'.
  set (s1 := with_step Commit s). assert (H1 : W s1) by (apply W_step; [exact H|left; cbn; lia]).
  set (s3 := wal_sync E CommitWAL (wal E CommitWAL (WVotes (indexed (vs_msgs (precommits_of r (with_crnd r s1))) 0)) (with_crnd r s1))).
  assert (H3 : W s3) by (apply W_sync, W_wal, W_crnd; exact H1).
  assert (S3 : s_step s3 = Commit).
  { unfold s3. rewrite (proj1 (proj2 (proj2 (proj2 (proj2 (proj2 (sync_same E CommitWAL _))))))).
    rewrite (proj1 (proj2 (proj2 (proj2 (proj2 (proj2 (wal_same E CommitWAL _ _))))))). reflexivity. }
  cbv zeta. fold s3.
  set (s4 := with_cur (set_id id (s_cur s3)) s3).
  assert (H4 : W s4). { apply W_cur; [exact H3|]. intros p Ep. eapply set_id_dec; [|exact Ep]. apply (w_cur _ H3). }
  assert (S4 : s_step s4 = Commit) by exact S3. clearbody s4. clear H3 S3 s3.
  set (s5 := match s_cur s4 with
      | Some p => if negb (p_complete p) && e_cached E
          then with_cur (Some (mkParts (p_id p) true (c_decodes C (p_id p)) false)) s4 else s4
      | None => s4 end).
  assert (H5 : W s5 /\ s_step s5 = Commit).
  { unfold s5. destruct (s_cur s4) as [p|]; [|auto]. destruct (negb (p_complete p) && e_cached E); [|auto].
    split; [|exact S4]. apply W_cur; [exact H4|]. intros q Eq. injection Eq as <-. apply dec_new. }
  clearbody s5. destruct H5 as (H5 & S5).
  destruct (s_cur s5) as [p|] eqn:Ec.
  - destruct (p_complete p) eqn:Ep.
    + apply G_late; [eapply finish_W; eauto|]. rewrite finish_step, S5. cbn. lia.
    + apply G_late; [exact H5|]. rewrite S5. cbn. lia.
  - apply G_late; [exact H5|]. rewrite S5. cbn. lia.
Qed.

(* ---- a new round ---- *)
Definition fresh (s : node) : Prop := forall r id, s_import s = Some (r, id) -> r < s_round s.

Lemma fresh_I1 : forall s, fresh s -> I1 s.
Proof. intros s F r id Hi Hr. specialize (F r id Hi). lia. Qed.

Lemma early_fresh : forall s, W s -> (step_num (s_step s) < 4)%nat -> fresh s.
Proof.
  intros s H L r id Hi. pose proof (w_le s H r id Hi). destruct (Z.eq_dec (s_round s) r) as [Er|Er]; [|lia].
  pose proof (w_imp s H r id Hi Er). lia.
Qed.

Lemma reset_ok : forall r s, W s -> s_round s < r ->
  W (reset_round r s) /\ fresh (reset_round r s) /\ s_step (reset_round r s) = NewRound /\
  s_cur (reset_round r s) = None /\ gone (reset_round r s) = gone s.
Proof.
  intros r s [a b c d e] L. unfold reset_round, begin_step.
  split; [|split; [|split; [reflexivity|split; reflexivity]]].
  - constructor; cbn; auto; try discriminate.
    + intros r' id Hi. specialize (d r' id Hi). lia.
    + intros r' id Hi. specialize (d r' id Hi). lia.
  - intros r' id Hi. cbn in *. specialize (d r' id Hi). lia.
Qed.

Lemma G_fresh : forall s, W s -> fresh s -> G s.
Proof. intros s H F. split; [exact H|]. intros _. apply fresh_I1. exact F. Qed.

Lemma send_proposal_same : forall id pol s, s_import (send_proposal E id pol s) = s_import s /\
  s_round (send_proposal E id pol s) = s_round s /\ s_step (send_proposal E id pol s) = s_step s.
Proof.
  intros. unfold send_proposal, wal_sync, wal. destruct (e_disk E); repeat split; reflexivity.
Qed.
Lemma W_proposal : forall id pol s, W s -> W (send_proposal E id pol s).
Proof. intros. unfold send_proposal. apply W_emit, W_sync, W_wal. assumption. Qed.

(* the part of enterPropose that does not vote *)
Lemma propose_begin : forall s, W s -> (step_num (s_step s) < 3)%nat -> gone s = false -> forall rec,
  (proposal_complete (with_step Propose s) = true -> G (rec CPrevote (with_step Propose s))) ->
  G (enter_propose C me E rec s).
Proof.
  intros s H L Eg rec K. unfold enter_propose. rewrite begin_ok by (try discriminate; exact L).
  unfold andthen. assert (Eg' : gone (with_step Propose s) = false) by exact Eg. rewrite Eg'.
  assert (F : fresh s) by (apply early_fresh; [exact H|lia]).
  assert (H1 : W (with_step Propose s)) by (apply W_step; [exact H|right; right; lia]).
  destruct (is_proposer C me (with_step Propose s)).
  - destruct (s_locked (with_step Propose s)) as [lp|] eqn:El.
    + apply G_fresh.
      * apply W_cur; [apply W_proposal; exact H1|]. intros p Ep. injection Ep as <-. apply have_dec.
        apply (w_lock _ H1). exact El.
      * intros r id Hi. destruct (send_proposal_same (p_id lp) (s_lround (with_step Propose s)) (with_step Propose s)) as (A & B & _).
        cbn [with_cur s_import s_round] in *. rewrite A in Hi. rewrite B. apply (F r id). exact Hi.
    + apply G_fresh; [apply W_prop; exact H1|]. intros r id Hi. apply (F r id). exact Hi.
  - destruct (proposal_complete (with_step Propose s)) eqn:Ep; [apply K; reflexivity|].
    apply G_fresh; [exact H1|]. intros r id Hi. apply (F r id). exact Hi.
Qed.

Lemma new_round_G : forall f s, W s -> G (go (S (S f)) CNewRound s).
Proof.
  intros f s H. apply run_gone; [exact H|]. intros Eg. cbn [do_call]. unfold enter_new_round.
  destruct (reset_ok (s_round s + 1) s H ltac:(lia)) as (H1 & F1 & S1 & C1 & G1).
  unfold andthen. rewrite G1, Eg. generalize dependent (reset_round (s_round s + 1) s). intros s1 H1 F1 S1 C1 G1.
  destruct (e_delay E); [apply G_fresh; auto|].
  apply run_gone; [exact H1|]. intros Eg1. cbn [do_call]. apply propose_begin; auto.
  - rewrite S1. cbn. lia.
  - intros Hp. exfalso. unfold proposal_complete in Hp. cbn [with_step s_cur] in Hp. rewrite C1 in Hp. discriminate.
Qed.

(* ---- precommits ---- *)
Lemma precommit_wait_G : forall f s, W s -> (step_num (s_step s) < 7)%nat -> G (go (S (S (S f))) CPrecommitWait s).
Proof.
  intros f s H L. apply run_gone; [exact H|]. intros Eg. cbn [do_call]. unfold enter_precommit_wait.
  rewrite begin_ok by (try discriminate; exact L).
  unfold andthen. assert (Eg' : gone (with_step PrecommitWait s) = false) by exact Eg. rewrite Eg'.
  set (s1 := with_step PrecommitWait s). assert (H1 : W s1) by (apply W_step; [exact H|left; cbn; lia]).
  cbv zeta. set (s2 := wal E RoundWAL _ s1). assert (H2 : W s2) by (apply W_wal; exact H1).
  assert (S2 : s_step s2 = PrecommitWait).
  { unfold s2. rewrite (proj1 (proj2 (proj2 (proj2 (proj2 (proj2 (wal_same E RoundWAL _ _))))))). reflexivity. }
  destruct (over_id _) as [[id|]|].
  - apply commit_G; [exact H2|]. rewrite S2. cbn. lia.
  - apply new_round_G. exact H2.
  - apply G_late; [exact H2|]. rewrite S2. cbn. lia.
Qed.

Lemma recv_early : forall s h, G s -> G (with_hvs h s).
Proof. intros s h (H & K). split; [apply W_hvs; exact H|exact K]. Qed.

Lemma recv_own_precommit : forall f i v s, W s -> v_type v = Precommit -> v_round v = s_round s ->
  s_step s = PrecommitS -> G (go (S (S (S (S f)))) (CRecv i v) s).
Proof.
  intros f i v s H T R S0. apply run_gone; [exact H|]. intros Eg. cbn [do_call]. unfold receive_vote.
  assert (GS : G s) by (apply G_late; [exact H|rewrite S0; cbn; lia]).
  destruct (negb (Z.eqb (v_height v) (c_height C))); [exact GS|].
  destruct (negb (Nat.ltb i (c_n C))); [exact GS|].
  destruct (h_add (c_digest C) i v (s_hvs s)) as (added, h).
  destruct (negb added); [apply recv_early; exact GS|].
  destruct (negb (vs_has _)); [apply recv_early; exact GS|]. rewrite T.
  unfold handle_precommit. cbn [with_hvs s_round s_step]. rewrite R, S0, Z.ltb_irrefl, Z.eqb_refl.
  cbn [andb step_ltb step_eqb step_num Nat.ltb Nat.leb Nat.eqb].
  apply precommit_wait_G; [apply W_hvs; exact H|]. cbn. rewrite S0. cbn. lia.
Qed.

Lemma send_state : forall v s, let s' := emit (FxVote v) (wal_sync E RoundWAL (wal E RoundWAL (WVote v) s)) in
  s_round s' = s_round s /\ s_step s' = s_step s /\ s_import s' = s_import s /\ s_cur s' = s_cur s /\ gone s' = gone s.
Proof. intros v s. unfold wal_sync, wal. destruct (e_disk E); cbn; auto. Qed.

Lemma send_precommit_G : forall f p s, W s -> s_step s = PrecommitS -> (forall q, p = Some q -> p_block q = true) ->
  G (go (S (S (S (S (S f))))) (CSend Precommit p) s).
Proof.
  intros f p s H S0 Hp. apply run_gone; [exact H|]. intros Eg. cbn [do_call]. unfold send_vote.
  assert (GS : G s) by (apply G_late; [exact H|rewrite S0; cbn; lia]).
  pose proof (recv_own_precommit f) as R. set (g := go (S (S (S (S f))))) in *. clearbody g.
  destruct me as [i|]; [|exact GS]. destruct (Nat.ltb i (c_n C)); [|exact GS].
  destruct p as [q|].
  - rewrite (Hp q eq_refl). cbv zeta. set (v := mkVote _ _ _ _ _).
    destruct (send_state v s) as (A & B & _).
    apply R; [apply W_emit, W_sync, W_wal; exact H|reflexivity|rewrite A; reflexivity|rewrite B; exact S0].
  - cbv zeta. set (v := mkVote _ _ _ _ _).
    destruct (send_state v s) as (A & B & _).
    apply R; [apply W_emit, W_sync, W_wal; exact H|reflexivity|rewrite A; reflexivity|rewrite B; exact S0].
Qed.

Lemma precommit_after : forall f s, G s -> G (andthen s (precommit_check (go (S (S (S f)))))).
Proof.
  intros f s (H & K). unfold andthen. destruct (gone s) eqn:Eg; [split; auto; intros F; congruence|].
  unfold precommit_check. destruct (step_eqb (s_step s) PrecommitS) eqn:Es; cbn [andb].
  - destruct (vs_has _); [|split; auto]. apply precommit_wait_G; [exact H|]. apply step_eqb_num in Es. rewrite Es. cbn. lia.
  - split; auto.
Qed.

Lemma precommit_G : forall f s, W s -> (step_num (s_step s) < 6)%nat -> G (go (S (S (S (S (S (S f)))))) CPrecommit s).
Proof.
  intros f s H L. apply run_gone; [exact H|]. intros Eg. cbn [do_call]. unfold enter_precommit.
  rewrite begin_ok by (try discriminate; exact L).
  unfold andthen at 1. assert (Eg' : gone (with_step PrecommitS s) = false) by exact Eg. rewrite Eg'.
  set (s1 := with_step PrecommitS s). assert (H1 : W s1) by (apply W_step; [exact H|left; cbn; lia]).
  assert (S1 : s_step s1 = PrecommitS) by reflexivity. cbv zeta. clearbody s1. clear H L Eg Eg' s.
  destruct (over_id (prevotes_of (s_round s1) s1)) as [[id|]|].
  - destruct (has_id id (s_locked s1)).
    + apply (precommit_after (S (S f))). apply send_precommit_G; [|exact S1|].
      * apply W_lock; [exact H1|]. exact (w_lock _ H1).
      * cbn. intros q Eq. apply (w_lock _ H1 q Eq).
    + destruct (has_id id (s_cur s1) && match s_cur s1 with Some p => p_block p | None => false end) eqn:Eb.
      * apply andb_true_iff in Eb. destruct Eb as (_ & Eb).
        assert (HL : forall q, s_cur s1 = Some q -> p_block q = true) by (intros q Eq; rewrite Eq in Eb; exact Eb).
        apply (precommit_after (S (S f))). set (s3 := wal_sync E LockWAL _).
        assert (L3 : s_locked s3 = s_cur s1 /\ s_step s3 = PrecommitS).
        { unfold s3, wal_sync, wal. destruct (e_disk E); cbn; auto. }
        assert (H3 : W s3).
        { apply W_sync, W_wal, W_wal, W_lock; [exact H1|]. intros q Eq. split; [auto|]. apply (w_cur _ H1 q Eq). auto. }
        apply send_precommit_G; [exact H3|apply L3|]. rewrite (proj1 L3). exact HL.
      * destruct (has_id id (s_cur s1) && match s_cur s1 with Some p => p_complete p | None => false end) eqn:Ec.
        -- apply andb_true_iff in Ec. destruct Ec as (Ei & Ec). rewrite Ei in Eb. cbn in Eb.
           destruct (s_cur s1) as [p|] eqn:Ep; [|discriminate].
           destruct (proj1 (w_cur _ H1 p Ep) Ec) as [D|D]; [congruence|].
           apply G_late; [apply W_upgrade; auto|]. cbn. rewrite S1. cbn. lia.
        -- apply (precommit_after (S (S f))). apply send_precommit_G; [|exact S1|discriminate].
           apply W_lock; [|discriminate]. apply W_cur; [exact H1|]. intros p Ep. eapply set_id_dec; [|exact Ep].
           apply (w_cur _ H1).
  - apply (precommit_after (S (S f))). apply send_precommit_G; [|exact S1|discriminate]. apply W_lock; [exact H1|discriminate].
  - apply (precommit_after (S (S f))). apply send_precommit_G; [exact H1|exact S1|discriminate].
Qed.

(* ---- prevotes ---- *)
Lemma prevote_wait_G : forall f s, W s -> (step_num (s_step s) < 5)%nat ->
  (I1 s \/ over_id (prevotes_of (s_round s) s) <> None) ->
  G (go (S (S (S (S (S (S (S f))))))) CPrevoteWait s).
Proof.
  intros f s H L K. apply run_gone; [exact H|]. intros Eg. cbn [do_call]. unfold enter_prevote_wait.
  rewrite begin_ok by (try discriminate; exact L).
  unfold andthen. assert (Eg' : gone (with_step PrevoteWait s) = false) by exact Eg. rewrite Eg'.
  set (s1 := with_step PrevoteWait s). assert (H1 : W s1) by (apply W_step; [exact H|left; cbn; lia]).
  cbv zeta. set (s2 := wal E RoundWAL _ s1). assert (H2 : W s2) by (apply W_wal; exact H1).
  destruct (wal_same E RoundWAL (WVotes (indexed (vs_msgs (prevotes_of (s_round s1) s1)) 0)) s1)
    as (_ & _ & A3 & A4 & A5 & A6 & _). fold s2 in A3, A4, A5, A6.
  change (prevotes_of (s_round s1) s1) with (prevotes_of (s_round s) s).
  destruct (over_id (prevotes_of (s_round s) s)) as [o|].
  - apply precommit_G; [exact H2|]. rewrite A6. cbn. lia.
  - destruct K as [K|K]; [|congruence]. split; [exact H2|]. intros _ r id Hi Hr _. rewrite A3. rewrite A4 in Hi. rewrite A5 in Hr.
    apply (K r id Hi Hr). lia.
Qed.

(* the state after handlePrevoteMessage has looked at the majority *)
Definition polka_seen (v : vote) (s : node) : node :=
  match over_id (prevotes_of (v_round v) s) with
  | Some oid =>
      let s0 :=
        match s_locked s with
        | Some lp =>
            if Z.ltb (s_lround s) (v_round v)
               && negb (match oid with Some id => Z.eqb (p_id lp) id | None => false end)
            then with_lock None (-1) s else s
        | None => s
        end in
      match oid with
      | Some id => if Z.eqb (s_round s0) (v_round v) then with_cur (set_id id (s_cur s0)) s0 else s0
      | None => s0
      end
  | None => s
  end.

Lemma polka_seen_ok : forall v s, W s ->
  W (polka_seen v s) /\ s_round (polka_seen v s) = s_round s /\ s_step (polka_seen v s) = s_step s /\
  s_import (polka_seen v s) = s_import s /\ s_hvs (polka_seen v s) = s_hvs s /\ gone (polka_seen v s) = gone s /\
  (s_round s <> v_round v \/ over_id (prevotes_of (v_round v) s) = None -> s_cur (polka_seen v s) = s_cur s).
Proof.
  intros v s H. unfold polka_seen. destruct (over_id (prevotes_of (v_round v) s)) as [oid|]; [|auto 8].
  cbv zeta.
  set (s0 := match s_locked s with Some lp => _ | None => s end).
  assert (A : W s0 /\ s_round s0 = s_round s /\ s_step s0 = s_step s /\ s_import s0 = s_import s /\ s_hvs s0 = s_hvs s /\
              gone s0 = gone s /\ s_cur s0 = s_cur s).
  { unfold s0. destruct (s_locked s) as [lp|]; [|auto 8]. destruct (_ && _); [|auto 8].
    split; [apply W_lock; [exact H|discriminate]|auto 8]. }
  clearbody s0. destruct A as (A1 & A2 & A3 & A4 & A5 & A6 & A7).
  destruct oid as [id|].
  - destruct (Z.eqb (s_round s0) (v_round v)) eqn:Er.
    + apply Z.eqb_eq in Er. cbn [with_cur s_round s_step s_import s_hvs s_cur].
      split; [apply W_cur; [exact A1|]; intros p Ep; eapply set_id_dec; [|exact Ep]; apply (w_cur _ A1)|].
      split; [exact A2|]. split; [exact A3|]. split; [exact A4|]. split; [exact A5|]. split; [exact A6|].
      intros [F|F]; [congruence|discriminate].
    + auto 8.
  - auto 8.
Qed.

Lemma prevote_after_seen : forall f v s, G s -> gone s = false ->
  (* the calls of handlePrevoteMessage, given what enterPrevote does *)
  (forall s', W s' -> (step_num (s_step s') < 4)%nat -> G (go (S (S (S (S (S (S (S f))))))) CPrevote s')) ->
  G (handle_prevote (go (S (S (S (S (S (S (S f)))))))) v s).
Proof.
  intros f v s (H & K) Eg KP. unfold handle_prevote.
  destruct (step_leb Commit (s_step s)) eqn:Ec; [split; auto|].
  assert (Lc : (step_num (s_step s) < 8)%nat).
  { apply Nat.nle_gt. intros F. apply (step_leb_num Commit (s_step s)) in F. congruence. }
  cbv zeta. fold (polka_seen v s).
  destruct (polka_seen_ok v s H) as (A1 & A2 & A3 & A4 & A5 & A6 & A7).
  set (s1 := polka_seen v s) in *. clearbody s1.
  assert (OV : over_id (prevotes_of (v_round v) s1) = over_id (prevotes_of (v_round v) s)).
  { unfold prevotes_of. rewrite A5. reflexivity. }
  destruct (Z.ltb (v_round v) (s_round s1) && step_ltb (s_step s1) PrevoteS && Z.eqb (v_round v) (s_pol s1)
            && proposal_complete s1) eqn:E1.
  { rewrite !andb_true_iff in E1. apply KP; [exact A1|]. apply (step_ltb_num (s_step s1) PrevoteS). tauto. }
  destruct (Z.eqb (s_round s1) (v_round v) && step_ltb (s_step s1) PrevoteS) eqn:E2.
  { rewrite andb_true_iff in E2. apply KP; [exact A1|]. apply (step_ltb_num (s_step s1) PrevoteS). tauto. }
  assert (KI : over_id (prevotes_of (v_round v) s) = None -> I1 s1).
  { intros Hn r id Hi Hr L. rewrite (A7 (or_intror Hn)). rewrite A4 in Hi. rewrite A2 in Hr. rewrite A3 in L.
    exact (K Eg r id Hi Hr L). }
  destruct (Z.eqb (s_round s1) (v_round v) && step_eqb (s_step s1) PrevoteS) eqn:E3.
  { rewrite andb_true_iff, Z.eqb_eq, step_eqb_num in E3. destruct E3 as (Er & Es).
    apply prevote_wait_G; [exact A1|rewrite Es; cbn; lia|]. rewrite Er, OV.
    destruct (over_id (prevotes_of (v_round v) s)) as [o|]; [right; discriminate|left; apply KI; reflexivity]. }
  destruct (Z.eqb (s_round s1) (v_round v) && step_eqb (s_step s1) PrevoteWait) eqn:E4.
  { rewrite andb_true_iff, Z.eqb_eq, step_eqb_num in E4. destruct E4 as (Er & Es).
    destruct (over_id (prevotes_of (v_round v) s)) as [o|].
    - apply precommit_G; [exact A1|]. rewrite Es. cbn. lia.
    - split; [exact A1|]. intros _. apply KI. reflexivity. }
  destruct (Z.ltb (s_round s1) (v_round v) && step_ltb (s_step s1) Commit) eqn:E5.
  { rewrite andb_true_iff, Z.ltb_lt in E5. destruct E5 as (Er & _).
    destruct (reset_ok (v_round v) s1 A1 Er) as (B1 & _ & B3 & _). apply KP; [exact B1|]. rewrite B3. cbn. lia. }
  split; [exact A1|]. intros _. destruct (Z.eq_dec (s_round s1) (v_round v)) as [Er|Er].
  - apply I1_late. apply Z.eqb_eq in Er. rewrite Er in E2, E3, E4. cbn [andb] in E2, E3, E4.
    destruct (s_step s1); cbn in E2, E3, E4 |- *; try discriminate; lia.
  - intros r id Hi Hr L. rewrite A7 by (left; congruence). rewrite A4 in Hi. rewrite A2 in Hr. rewrite A3 in L.
    exact (K Eg r id Hi Hr L).
Qed.

Lemma recv_own_prevote : forall f i v s, G s -> v_type v = Prevote -> v_round v = s_round s ->
  (4 <= step_num (s_step s) <= 5)%nat -> G (go (S (S (S (S (S (S (S (S f)))))))) (CRecv i v) s).
Proof.
  intros f i v s GS T R S0. apply run_gone; [apply GS|]. intros Eg. cbn [do_call]. unfold receive_vote.
  destruct (negb (Z.eqb (v_height v) (c_height C))); [exact GS|].
  destruct (negb (Nat.ltb i (c_n C))); [exact GS|].
  destruct (h_add (c_digest C) i v (s_hvs s)) as (added, h).
  destruct (negb added); [apply recv_early; exact GS|].
  destruct (negb (vs_has _)); [apply recv_early; exact GS|]. rewrite T.
  (* no enterPrevote is called at this point *)
  pose proof (recv_early s h GS) as G1. set (s1 := with_hvs h s) in *.
  assert (Eg1 : gone s1 = false) by exact Eg. assert (R1 : v_round v = s_round s1) by exact R.
  assert (S1 : (4 <= step_num (s_step s1) <= 5)%nat) by exact S0. clearbody s1.
  destruct G1 as (H & K). unfold handle_prevote.
  destruct (step_leb Commit (s_step s1)) eqn:Ec; [split; auto|].
  cbv zeta. fold (polka_seen v s1).
  destruct (polka_seen_ok v s1 H) as (A1 & A2 & A3 & A4 & A5 & A6 & A7).
  set (s2 := polka_seen v s1) in *. clearbody s2.
  assert (OV : over_id (prevotes_of (v_round v) s2) = over_id (prevotes_of (v_round v) s1)).
  { unfold prevotes_of. rewrite A5. reflexivity. }
  assert (Er : Z.eqb (s_round s2) (v_round v) = true) by (apply Z.eqb_eq; congruence).
  assert (El : Z.ltb (v_round v) (s_round s2) = false) by (apply Z.ltb_ge; lia).
  rewrite Er, El. cbn [andb].
  assert (Es : step_ltb (s_step s2) PrevoteS = false).
  { apply not_true_iff_false. rewrite step_ltb_num, A3. cbn. lia. }
  rewrite Es.
  assert (KI : over_id (prevotes_of (v_round v) s1) = None -> I1 s2).
  { intros Hn r id Hi Hr L. rewrite (A7 (or_intror Hn)). rewrite A4 in Hi. rewrite A2 in Hr. rewrite A3 in L.
    exact (K Eg1 r id Hi Hr L). }
  destruct (step_eqb (s_step s2) PrevoteS) eqn:E3.
  { apply step_eqb_num in E3. apply prevote_wait_G; [exact A1|rewrite E3; cbn; lia|].
    apply Z.eqb_eq in Er. rewrite Er, OV.
    destruct (over_id (prevotes_of (v_round v) s1)) as [o|]; [right; discriminate|left; apply KI; reflexivity]. }
  destruct (step_eqb (s_step s2) PrevoteWait) eqn:E4.
  { apply step_eqb_num in E4. destruct (over_id (prevotes_of (v_round v) s1)) as [o|].
    - apply (precommit_G (S f)); [exact A1|]. rewrite E4. cbn. lia.
    - split; [exact A1|]. intros _. apply KI. reflexivity. }
  exfalso. assert (X1 : step_num (s_step s2) <> 4%nat) by (intros F; apply (step_eqb_num (s_step s2) PrevoteS) in F; congruence).
  assert (X2 : step_num (s_step s2) <> 5%nat) by (intros F; apply (step_eqb_num (s_step s2) PrevoteWait) in F; congruence).
  rewrite A3 in X1, X2. lia.
Qed.

Lemma send_prevote_G : forall f p s, G s -> (4 <= step_num (s_step s) <= 5)%nat ->
  (forall q, p = Some q -> p_block q = true) ->
  G (go (S (S (S (S (S (S (S (S (S f))))))))) (CSend Prevote p) s).
Proof.
  intros f p s GS S0 Hp. apply run_gone; [apply GS|]. intros Eg. cbn [do_call]. unfold send_vote.
  pose proof (recv_own_prevote f) as R. set (g := go (S (S (S (S (S (S (S (S f))))))))) in *. clearbody g.
  assert (KV : forall v, v_type v = Prevote -> v_round v = s_round s -> forall i,
    G (g (CRecv i v) (emit (FxVote v) (wal_sync E RoundWAL (wal E RoundWAL (WVote v) s))))).
  { intros v T Rv i. destruct (send_state v s) as (A & B & D & F & A6). destruct GS as (H & K).
    apply R; [|exact T|rewrite A; exact Rv|rewrite B; exact S0]. split; [apply W_emit, W_sync, W_wal; exact H|].
    intros _ r id Hi Hr L. rewrite F. rewrite D in Hi. rewrite A in Hr. rewrite B in L. exact (K Eg r id Hi Hr L). }
  destruct me as [i|]; [|exact GS]. destruct (Nat.ltb i (c_n C)); [|exact GS].
  destruct p as [q|].
  - rewrite (Hp q eq_refl). apply KV; reflexivity.
  - apply KV; reflexivity.
Qed.

Lemma prevote_check_G : forall f s, G s -> gone s = false -> G (prevote_check (go (S (S (S (S (S (S (S f)))))))) s).
Proof.
  intros f s (H & K) Eg. unfold prevote_check. destruct (step_eqb (s_step s) PrevoteS) eqn:Es; cbn [andb]; [|split; auto].
  destruct (vs_has _); [|split; auto]. apply prevote_wait_G; [exact H| |left; auto].
  apply step_eqb_num in Es. rewrite Es. cbn. lia.
Qed.

Lemma prevote_then : forall f s, G s -> G (andthen s (prevote_check (go (S (S (S (S (S (S (S f)))))))))).
Proof.
  intros f s GS. unfold andthen. destruct (gone s) eqn:Eg; [exact GS|]. apply prevote_check_G; auto.
Qed.

Lemma prevote_G : forall f s, W s -> (step_num (s_step s) < 4)%nat ->
  G (go (S (S (S (S (S (S (S (S (S (S f)))))))))) CPrevote s).
Proof.
  intros f s H L. apply run_gone; [exact H|]. intros Eg. cbn [do_call]. unfold enter_prevote.
  rewrite begin_ok by (try discriminate; exact L).
  assert (F : fresh s) by (apply early_fresh; auto).
  unfold andthen at 1. assert (Eg' : gone (with_step PrevoteS s) = false) by exact Eg. rewrite Eg'.
  set (s1 := with_step PrevoteS s). assert (H1 : W s1) by (apply W_step; [exact H|left; cbn; lia]).
  assert (F1 : fresh s1) by exact F. assert (G1 : G s1) by (apply G_fresh; auto).
  assert (S1 : s_step s1 = PrevoteS) by reflexivity. assert (Eg1 : gone s1 = false) by exact Eg.
  clearbody s1. clear H L Eg Eg' F s.
  assert (SP : forall p, (forall q, p = Some q -> p_block q = true) ->
    G (go (S (S (S (S (S (S (S (S (S f))))))))) (CSend Prevote p) s1)).
  { intros p Hp. apply send_prevote_G; auto. rewrite S1. cbn. lia. }
  assert (ST : forall p, (forall q, p = Some q -> p_block q = true) ->
    G (andthen (go (S (S (S (S (S (S (S (S (S f))))))))) (CSend Prevote p) s1)
         (prevote_check (go (S (S (S (S (S (S (S (S (S f))))))))))))).
  { intros p Hp. apply (prevote_then (S (S f))). apply SP. exact Hp. }
  destruct (s_locked s1) as [lp|] eqn:El.
  - apply ST. intros q Eq. injection Eq as <-. apply (w_lock _ H1 lp El).
  - destruct (s_cur s1) as [p|] eqn:Ep; [|apply ST; discriminate].
    destruct (p_block p) eqn:Eb; [|apply ST; discriminate].
    destruct (p_valid p); [apply ST; intros q Eq; injection Eq as <-; exact Eb|].
    destruct (negb (valid_proposer C s1)); [apply ST; discriminate|].
    destruct (e_import E); [|apply SP; discriminate].
    apply (prevote_check_G (S (S f))); [|exact Eg1].
    split.
    + destruct H1 as [a b c d e]. constructor; cbn; auto.
      * intros r id Hi. injection Hi as <- _. lia.
      * intros r id Hi Hr. rewrite S1. cbn. lia.
    + intros _ r id Hi Hr L. cbn. exists p. auto.
Qed.

Lemma propose_G : forall f s, W s -> (step_num (s_step s) < 3)%nat ->
  G (go (S (S (S (S (S (S (S (S (S (S (S f))))))))))) CPropose s).
Proof.
  intros f s H L. apply run_gone; [exact H|]. intros Eg. cbn [do_call]. apply propose_begin; auto.
  intros _. apply prevote_G; [|cbn; lia]. apply W_step; [exact H|right; right; lia].
Qed.

Lemma trans_wait_G : forall f s, W s -> (step_num (s_step s) < 1)%nat ->
  G (go (S (S (S (S (S (S (S (S (S (S (S (S f)))))))))))) CTransWait s).
Proof.
  intros f s H L. apply run_gone; [exact H|]. intros Eg. cbn [do_call]. unfold enter_trans_wait.
  rewrite begin_ok by (try discriminate; exact L).
  assert (F : fresh s) by (apply early_fresh; [exact H|lia]).
  unfold andthen. assert (Eg' : gone (with_step TransactionWait s) = false) by exact Eg. rewrite Eg'.
  assert (H1 : W (with_step TransactionWait s)) by (apply W_step; [exact H|right; right; lia]).
  destruct (e_waittx E); [apply G_fresh; auto|]. apply propose_G; [exact H1|cbn; lia].
Qed.

Lemma recv_G : forall f i v s, G s -> G (go (S (S (S (S (S (S (S (S (S (S (S f))))))))))) (CRecv i v) s).
Proof.
  intros f i v s GS. apply run_gone; [apply GS|]. intros Eg. cbn [do_call]. unfold receive_vote.
  destruct (negb (Z.eqb (v_height v) (c_height C))); [exact GS|].
  destruct (negb (Nat.ltb i (c_n C))); [exact GS|].
  destruct (h_add (c_digest C) i v (s_hvs s)) as (added, h).
  destruct (negb added); [apply recv_early; exact GS|].
  destruct (negb (vs_has _)); [apply recv_early; exact GS|].
  pose proof (recv_early s h GS) as G1. set (s1 := with_hvs h s) in *.
  assert (Eg1 : gone s1 = false) by exact Eg. clearbody s1.
  destruct (v_type v).
  - apply (prevote_after_seen (S (S (S f)))); auto. intros s' H' L'. apply prevote_G; auto.
  - unfold handle_precommit. destruct G1 as (H & K).
    destruct (Z.ltb (v_round v) (s_round s1) && step_ltb (s_step s1) Commit) eqn:E1.
    { apply andb_true_iff in E1. destruct E1 as (_ & E1). apply step_ltb_num in E1.
      destruct (over_id _) as [[id|]|]; [apply commit_G; auto|split; auto|split; auto]. }
    destruct (Z.eqb (s_round s1) (v_round v) && step_ltb (s_step s1) PrecommitS) eqn:E2.
    { apply andb_true_iff in E2. destruct E2 as (_ & E2). apply step_ltb_num in E2.
      apply (precommit_G (S (S (S (S f))))); auto. }
    destruct (Z.eqb (s_round s1) (v_round v) && step_eqb (s_step s1) PrecommitS) eqn:E3.
    { apply andb_true_iff in E3. destruct E3 as (_ & E3). apply step_eqb_num in E3.
      apply precommit_wait_G; auto. rewrite E3. cbn. lia. }
    destruct (Z.eqb (s_round s1) (v_round v) && step_eqb (s_step s1) PrecommitWait) eqn:E4.
    { apply andb_true_iff in E4. destruct E4 as (_ & E4). apply step_eqb_num in E4.
      destruct (over_id _) as [[id|]|]; [apply commit_G; auto; rewrite E4; cbn; lia|apply new_round_G; auto|split; auto]. }
    destruct (Z.ltb (s_round s1) (v_round v) && step_ltb (s_step s1) Commit) eqn:E5.
    { rewrite andb_true_iff, Z.ltb_lt in E5. destruct E5 as (Er & _).
      destruct (reset_ok (v_round v) s1 H Er) as (B1 & _ & B3 & _).
      apply (precommit_G (S (S (S (S f))))); [exact B1|]. rewrite B3. cbn. lia. }
    split; auto.
Qed.

(* ---- the events ---- *)
Lemma parts_changed_G : forall s, W s -> (gone s = false -> I1 s) -> gone s = false -> G (parts_changed C me E s).
Proof.
  intros s H K Eg. unfold parts_changed.
  destruct ((step_eqb (s_step s) TransactionWait || step_eqb (s_step s) Propose) && proposal_complete s) eqn:E1.
  { rewrite andb_true_iff, orb_true_iff, !step_eqb_num in E1. apply (prevote_G 14); [exact H|].
    destruct E1 as ([F|F] & _); rewrite F; cbn; lia. }
  destruct (step_eqb (s_step s) Commit) eqn:E2; cbn [andb]; [|split; auto].
  apply step_eqb_num in E2.
  destruct (s_cur s) as [p|] eqn:Ec; [|split; auto]. destruct (p_complete p) eqn:Ep; [|split; auto].
  apply G_late; [eapply finish_W; eauto|]. rewrite finish_step, E2. cbn. lia.
Qed.

Lemma handle_G : forall e s, G s -> G (handle C me E e s).
Proof.
  intros e s GS. unfold handle. destruct (gone s) eqn:Eg; [exact GS|]. destruct GS as (H & K). specialize (K Eg).
  destruct e as [i v|i r id pol| |ok|oid| |r votes id].
  - apply (recv_G 13). split; auto.
  - destruct (Z.eqb r (s_round s) && step_ltb (s_step s) Commit && Nat.ltb i (c_n C)
              && Z.eqb (proposer_index C (s_round s)) (Z.of_nat i)); [|split; auto].
    destruct (s_cur s) as [q|] eqn:Ec; [split; auto|].
    apply parts_changed_G; [| |exact Eg].
    + apply W_cur; [apply W_pol; exact H|]. intros p Ep. injection Ep as <-. destruct (e_cached E); [apply dec_new|].
      split; discriminate.
    + intros _ r0 id0 Hi Hr L. exfalso. destruct (K r0 id0 Hi Hr L) as (p & Ep & _). congruence.
  - destruct (s_cur s) as [p|] eqn:Ec; [|split; auto]. destruct (p_complete p) eqn:Ep; [split; auto|].
    apply parts_changed_G; [| |exact Eg].
    + apply W_cur; [exact H|]. intros q Eq. injection Eq as <-. apply dec_new.
    + intros _ r0 id0 Hi Hr L. exfalso. destruct (K r0 id0 Hi Hr L) as (q & Eq & Eb).
      pose proof (proj2 (w_cur _ H q Eq) Eb). congruence.
  - destruct (s_import s) as [(r, id)|] eqn:Ei; [|split; auto].
    pose proof (W_noimport s H) as H1. cbv zeta. set (s1 := with_import None s) in *.
    assert (S1 : s_step s1 = s_step s) by reflexivity. assert (R1 : s_round s1 = s_round s) by reflexivity.
    assert (C1 : s_cur s1 = s_cur s) by reflexivity. assert (N1 : s_import s1 = None) by reflexivity.
    clearbody s1. assert (NI : forall x, s_import x = None -> I1 x) by (intros x Hx r0 id0 Hi; congruence).
    destruct (negb (Z.eqb (s_round s1) r) || step_leb Commit (s_step s1)) eqn:E1; [split; auto|].
    rewrite orb_false_iff, negb_false_iff, Z.eqb_eq in E1. destruct E1 as (Er & _).
    pose proof (w_imp _ H r id Ei ltac:(congruence)) as L4.
    destruct ok.
    + set (s2 := match s_cur s1 with Some p => _ | None => s1 end).
      assert (A : W s2 /\ s_import s2 = None /\ s_step s2 = s_step s1 /\ ((step_num (s_step s) <= 5)%nat -> exists p, s_cur s2 = Some p /\ p_block p = true)).
      { unfold s2. destruct (s_cur s1) as [p|] eqn:Ep.
        - destruct (p_block p && Z.eqb (c_bid C (p_id p)) (c_bid C id)) eqn:Eb.
          + split; [apply W_cur; [exact H1|]; intros q Eq; injection Eq as <-; apply have_dec; split; reflexivity|].
            split; [exact N1|]. split; [reflexivity|]. intros _. eexists. split; reflexivity.
          + split; [exact H1|]. split; [exact N1|]. split; [reflexivity|]. intros L.
          destruct (K r id Ei ltac:(congruence) L) as (q & Eq & Hq). exists q. split; [congruence|exact Hq].
        - split; [exact H1|]. split; [exact N1|]. split; [reflexivity|]. intros L.
          destruct (K r id Ei ltac:(congruence) L) as (q & Eq & Hq). exists q. split; [congruence|exact Hq]. }
      clearbody s2. destruct A as (A1 & A2 & A3 & A4).
      destruct (step_leb (s_step s2) PrevoteWait) eqn:El; [|split; auto].
      apply (step_leb_num (s_step s2) PrevoteWait) in El. cbn [step_num] in El. rewrite A3, S1 in El.
      destruct (A4 El) as (p & Ep & Eb). rewrite Ep. apply (send_prevote_G 15).
      * split; auto.
      * rewrite A3, S1. lia.
      * intros q Eq. injection Eq as <-. exact Eb.
    + destruct (step_leb (s_step s1) PrevoteWait) eqn:El; [|split; auto].
      apply (step_leb_num (s_step s1) PrevoteWait) in El. cbn [step_num] in El. rewrite S1 in El.
      apply (send_prevote_G 15); [split; auto| |discriminate]. rewrite S1. lia.
  - destruct (s_prop s) as [r|]; [|split; auto]. cbv zeta. pose proof (W_prop s None H) as H1.
    destruct (Z.eqb (s_round (with_prop None s)) r && step_eqb (s_step (with_prop None s)) Propose) eqn:E1; [|split; auto].
    apply andb_true_iff in E1. destruct E1 as (_ & E1). apply step_eqb_num in E1.
    destruct oid as [id|].
    + apply (prevote_G 14).
      * apply W_cur; [apply W_proposal; exact H1|]. intros p Ep. injection Ep as <-. apply have_dec. split; reflexivity.
      * destruct (send_proposal_same id (-1) (with_prop None s)) as (_ & _ & X). cbn [with_cur s_step] in *.
        rewrite X, E1. cbn. lia.
    + apply (prevote_G 14); [exact H1|]. rewrite E1. cbn. lia.
  - destruct (s_step s) eqn:Es.
    + apply (trans_wait_G 12); [exact H|rewrite Es; cbn; lia].
    + apply (propose_G 13); [exact H|rewrite Es; cbn; lia].
    + apply (propose_G 13); [exact H|rewrite Es; cbn; lia].
    + apply (prevote_G 14); [exact H|rewrite Es; cbn; lia].
    + split; auto.
    + apply (precommit_G 18); [exact H|rewrite Es; cbn; lia].
    + split; auto.
    + apply (new_round_G 22). exact H.
    + split; auto.
  - destruct (step_eqb (s_step s) Commit && match s_cur s with Some p => p_complete p | None => false end);
      [split; auto|].
    cbv zeta. set (h := fold_left _ votes (s_hvs s)). clearbody h.
    pose proof (W_hvs s h H) as H1. assert (G1 : G (with_hvs h s)) by (apply recv_early; split; auto).
    destruct (over_id (precommits_of r (with_hvs h s))) as [[id'|]|]; [|exact G1|exact G1].
    destruct (Z.eqb id id'); [|exact G1].
    set (s2 := with_cur _ (with_hvs h s)).
    assert (H2 : W s2).
    { apply W_cur; [exact H1|]. intros p Ep. injection Ep as <-. apply have_dec. split; reflexivity. }
    destruct (step_ltb (s_step s2) Commit) eqn:El.
    + apply step_ltb_num in El. apply (commit_G 23); auto.
    + apply G_late.
      * eapply finish_W; [exact H2|reflexivity|reflexivity].
      * rewrite finish_step. apply Nat.le_trans with (m := 8%nat); [lia|]. apply Nat.nlt_ge. intros F.
        apply (step_ltb_num (s_step s2) Commit) in F. congruence.
Qed.

(* ---- restart ---- *)
Definition early (s : node) : Prop := s_import s = None /\ (s_step s = NewHeight \/ s_step s = Propose \/ s_step s = PrevoteS \/ s_step s = PrecommitS).

Lemma vote_step_early : forall t, vote_step t = NewHeight \/ vote_step t = Propose \/ vote_step t = PrevoteS \/ vote_step t = PrecommitS.
Proof. destruct t; cbn; auto. Qed.

Definition WE (s : node) : Prop := W s /\ early s.

Lemma WE_hvs : forall s h, WE s -> WE (with_hvs h s).
Proof. intros s h (A & B). split; [apply W_hvs; exact A|exact B]. Qed.

Lemma WE_at : forall s r st, WE s -> (st = NewHeight \/ st = Propose \/ st = PrevoteS \/ st = PrecommitS) ->
  WE (with_step st (with_round r s)).
Proof.
  intros s r st ([a b c d e] & (I0 & _)) Hs. split; [constructor; cbn; auto; intros; congruence|].
  split; [exact I0|exact Hs].
Qed.

Lemma round1_WE : forall e s, WE s -> WE (apply_round1 C me s e).
Proof.
  intros e s H. unfold apply_round1. destruct e as [v|l|r|p].
  - destruct me as [i|]; [|exact H]. destruct (Nat.ltb i (c_n C)); [|exact H]. cbv zeta.
    destruct (_ || _); [apply WE_at; [apply WE_hvs; exact H|apply vote_step_early]|apply WE_hvs; exact H].
  - destruct l as [|(i, v0) l]; [exact H|]. cbv zeta.
    destruct (_ && _); [apply WE_at; [apply WE_hvs; exact H|apply vote_step_early]|apply WE_hvs; exact H].
  - destruct (_ || _); [apply WE_at; auto|exact H].
  - exact H.
Qed.

Lemma lock1_WE : forall e a, WE (fst (fst a)) -> WE (fst (fst (apply_lock1 C a e))).
Proof.
  intros e ((s, bp), last) H. cbn [fst] in H. unfold apply_lock1. destruct e as [v|l|r|p]; try exact H.
  - destruct l as [|(i, v0) l]; [exact H|]. cbv zeta. cbn [fst].
    destruct (_ && _); [apply WE_at; [apply WE_hvs; exact H|apply vote_step_early]|apply WE_hvs; exact H].
  - destruct bp as [(a, b)|]; [|exact H]. destruct (Z.eqb p a); exact H.
Qed.

Lemma commit1_WE : forall e s, WE s -> WE (apply_commit1 C s e).
Proof.
  intros e s H. unfold apply_commit1. destruct e as [v|l|r|p]; try exact H.
  destruct l as [|(i, v0) l]; [exact H|]. cbv zeta.
  destruct (_ && _); [apply WE_at; [apply WE_hvs; exact H|apply vote_step_early]|apply WE_hvs; exact H].
Qed.

Lemma fold_keep : forall (A B : Type) (P : A -> Prop) (f : A -> B -> A), (forall a b, P a -> P (f a b)) ->
  forall l a, P a -> P (fold_left f l a).
Proof. intros A B P f Hf. induction l as [|b l IH]; intros a Ha; cbn; auto. Qed.

Lemma recover_WE : forall f, WE (recover C me f).
Proof.
  intros f. unfold recover. cbv zeta. set (s0 := mkNode _ _ _ _ _ _ _ _ _ _ _ _ f).
  assert (H0 : WE s0).
  { split; [constructor; cbn; auto; intros; discriminate|split; [reflexivity|left; reflexivity]]. }
  clearbody s0.
  pose proof (fold_keep _ _ WE (apply_round1 C me) (fun a b => round1_WE b a) (entries RoundWAL f) s0 H0) as H1.
  set (s1 := fold_left _ _ s0) in *. clearbody s1.
  pose proof (fold_keep lock_acc entry (fun a => WE (fst (fst a))) (apply_lock1 C) (fun a b => lock1_WE b a)
                (entries LockWAL f) (s1, None, None) H1) as H2.
  cbv beta in H2. generalize dependent (fold_left (apply_lock1 C) (entries LockWAL f) (s1, None, None)).
  intros ((s2, bp), last) H2.
  cbn [fst] in H2. apply fold_keep; [intros a b; apply commit1_WE|].
  destruct last as [(id, r)|]; [|exact H2]. destruct (c_decodes C id) eqn:Ed.
  - destruct H2 as (A & B). split; [|exact B].
    apply W_lock; [apply W_cur; [exact A|]|]; intros p Ep; injection Ep as <-; [apply have_dec|]; split; reflexivity.
  - destruct H2 as (A & B). split; [|exact B]. apply W_upgrade; [exact A|]. exists id. exact Ed.
Qed.

Lemma start_G : forall f, G (start C me E f).
Proof.
  intros f. unfold start. destruct (recover_WE f) as (H & (I0 & S0)). set (s := recover C me f) in *. clearbody s.
  assert (GS : G s) by (split; [exact H|intros _ r id Hi; congruence]).
  assert (I0' : I1 s) by (intros r id Hi; congruence).
  unfold andthen. destruct (gone s); [exact GS|].
  destruct S0 as [F|[F|[F|F]]]; rewrite F.
  - destruct (Z.eqb (s_round s) 0); [apply (trans_wait_G 12)|apply (propose_G 13)]; auto; rewrite F; cbn; lia.
  - apply (prevote_G 14); [exact H|rewrite F; cbn; lia].
  - destruct (vs_has _); [|exact GS]. apply (prevote_wait_G 17); [exact H|rewrite F; cbn; lia|left; exact I0'].
  - destruct (vs_has _); [|exact GS]. apply (precommit_wait_G 21); [exact H|rewrite F; cbn; lia].
Qed.
End WithEnv.

Lemma new_G : forall n, G (node_new n).
Proof.
  intros n. split; [|intros _ r id Hi; discriminate]. constructor; cbn; auto; intros; discriminate.
Qed.
End Panic.
