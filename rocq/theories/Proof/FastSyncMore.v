(** More about histories of the client which fetches blocks: who is never heard
    of again, and what never ends. *)
From Coq Require Import ZArith List Bool Arith Lia Permutation.
From Verif Require Import Model.Bytes Model.FastSync Spec.FastSyncSpec Proof.FastSyncFacts Proof.FastSyncInv Proof.FastSyncOps Proof.FastSyncSteps
  Proof.FastSyncSys.
Import ListNotations.
Open Scope Z_scope.

Section More.
  Variable parse : bytes -> option Z.
  Local Notation inv := (inv parse).
  Local Notation step := (step parse).
  Local Notation run := (run parse).
  Local Notation sinv := (sinv parse).

  (** ** The peer whose block was rejected *)

  Definition barred (i : peer_id) (q : request) : Prop :=
    ~ In i (ids q) /\ forall x, In (Some x) (q_pending q) -> r_peer x <> i.

  (** [d] is the end of the request, or leaves the peer out. *)
  Definition bars (i : peer_id) (q : request) (d : done) : Prop :=
    forall q' out, d = Some (q', out) ->
      (forall x, In x (blocks_of out) -> r_peer x <> i /\ r_of x = q_no q)
      /\ forall q1, q' = Some q1 -> q_no q1 = q_no q /\ barred i q1.

  Lemma fewer_barred : forall i q q', fewer q q' -> barred i q -> barred i q'.
  Proof. intros i q q' (F1 & F2) (B1 & B2). split; [intros I1; exact (B1 (F1 i I1))|intros x I1; exact (B2 x (F2 x I1))]. Qed.

  Lemma bars_goes : forall i q q', q_no q' = q_no q -> barred i q' -> bars i q (Some (Some q', [])).
  Proof. intros i q q' E B q1 out H. injection H as <- <-. split; [intros x []|]. intros q2 H. injection H as <-. auto. Qed.

  Lemma bars_end : forall i q n b, bars i q (Some (None, [OnEnd n b])).
  Proof. intros i q n b q1 out H. injection H as <- <-. split; [intros x []|discriminate]. Qed.

  Lemma error_bars : forall net q k p f nb i, inv false q -> nth_error (q_peers q) k = Some p -> p_f p = Some f -> barred i q ->
    bars i q (on_error net q k (p_id p) f nb).
  Proof.
    intros net q k p f nb i V N E B.
    destruct (on_error_ok parse net false q k p f nb V N E ltac:(discriminate)) as [(-> & _)|(q' & -> & V' & S' & G & F1 & _)].
    - apply bars_end.
    - apply bars_goes; [exact (g_no _ _ G)|exact (fewer_barred _ _ _ F1 B)].
  Qed.

  Lemma set_bars : forall q k p f f' i, inv false q -> nth_error (q_peers q) k = Some p -> p_f p = Some f -> f_height f' = f_height f ->
    (f_timer f <> None -> f_timer f' <> None) -> barred i q -> bars i q (Some (Some (set_fetcher q k p f'), [])).
  Proof.
    intros q k p f f' i V N E EH ET B. destruct (set_fetcher_ok parse false q k p f f' V N E EH ET) as (_ & I1 & _).
    apply bars_goes; [reflexivity|]. destruct B as (B1 & B2). split; [rewrite I1; exact B1|exact B2].
  Qed.

  Lemma in_ids : forall q k p, nth_error (q_peers q) k = Some p -> In (p_id p) (ids q).
  Proof. intros q k p N. apply in_map. exact (nth_error_In _ _ N). Qed.

  Lemma receive_bars : forall net q j m i, inv false q -> barred i q -> bars i q (on_receive parse net q j m).
  Proof.
    intros net q j m i V B. unfold on_receive.
    assert (ST : bars i q (Some (Some q, []))) by (apply bars_goes; auto).
    destruct (find_peer _ (q_peers q)) as [[k p]|] eqn:F; [|exact ST].
    destruct (found _ _ _ _ _ F) as (N & EI & _). destruct p as [pi pr [f|]]; [|exact ST]. cbn [p_id] in EI. subst pi.
    remember (mkPeer j pr (Some f)) as p eqn:Ep.
    assert (PF : p_f p = Some f) by (subst p; reflexivity). assert (PI : p_id p = j) by (subst p; reflexivity).
    assert (ER : forall nb, bars i q (on_error net q k j f nb)).
    { intros nb. rewrite <- PI. exact (error_bars net q k p f nb i V N PF B). }
    destruct (f_step f), m as [req len proof|req data]; try exact ST.
    - destruct (negb (req =? f_req f)); [exact ST|]. destruct (len <? 0); [apply ER|]. apply (set_bars q k p f); auto.
    - destruct (negb (req =? f_req f)); [exact ST|]. cbv zeta.
      destruct (f_left f - Z.of_nat (length data) =? 0).
      + destruct (parse (concat (f_data f ++ [data]))) as [h|] eqn:EP; [|apply ER].
        destruct (h =? f_height f) eqn:EH; [|apply ER]. apply Z.eqb_eq in EH. subst h.
        destruct (on_block_ok parse net false q k p f (concat (f_data f ++ [data])) (f_votes f) V N PF EP ltac:(discriminate))
          as (q' & r & E & Er & V' & S' & G & ID & PE & _).
        rewrite PI in E. rewrite E.
        assert (NJ : r_peer r <> i). { subst r. cbn. intros X. apply (proj1 B). rewrite <- X. exact (in_ids _ _ _ N). }
        assert (RO : r_of r = q_no q) by (subst r; reflexivity).
        intros q1 out H. injection H as <- <-. split.
        * intros x I1. destruct (_ =? 0); [|destruct I1]. destruct I1 as [<- |[]]. split; assumption.
        * intros q2 H. injection H as <-. split; [exact (g_no _ _ G)|]. destruct B as (B1 & B2). split; [rewrite ID; exact B1|].
          intros x I1. destruct (PE x I1) as [-> |I2]; [exact NJ|exact (B2 x I2)].
      + destruct (_ <? 0); [apply ER|]. apply (set_bars q k p f); auto.
  Qed.

  Lemma timer_bars : forall net q j no i, inv false q -> barred i q -> bars i q (on_timer net q j no).
  Proof.
    intros net q j no i V B. unfold on_timer.
    assert (ST : bars i q (Some (Some q, []))) by (apply bars_goes; auto).
    destruct (find_peer _ (q_peers q)) as [[k p]|] eqn:F; [|exact ST].
    destruct (found _ _ _ _ _ F) as (N & EI & _). destruct p as [pi pr [f|]]; [|exact ST]. cbn [p_id] in EI. subst pi.
    remember (mkPeer j pr (Some f)) as p eqn:Ep.
    assert (PF : p_f p = Some f) by (subst p; reflexivity). assert (PI : p_id p = j) by (subst p; reflexivity).
    assert (ER : forall nb, bars i q (on_error net q k j f nb)).
    { intros nb. rewrite <- PI. exact (error_bars net q k p f nb i V N PF B). }
    destruct (f_timer f) as [[|]|] eqn:ET; [|apply ER|exact ST].
    destruct (net j); [|exact ST|apply ER]. apply (set_bars q k p f); auto. discriminate.
  Qed.

  Definition shut (i : peer_id) (n : nat) (s : sys) : Prop :=
    (n < c_next (s_client s))%nat /\ forall q, c_req (s_client s) = Some q -> q_no q = n -> barred i q.

  Definition no_block_of (i : peer_id) (n : nat) (e : list event) : Prop :=
    forall x, In (EBlock x) e -> r_of x = n -> r_peer x <> i.

  Lemma no_block_app : forall i n a b, no_block_of i n a -> no_block_of i n b -> no_block_of i n (a ++ b).
  Proof. intros i n a b A B x I1. apply in_app_iff in I1. destruct I1 as [I1|I1]; [exact (A x I1)|exact (B x I1)]. Qed.

  Lemma blocks_in : forall x out, In (EBlock x) (map event_of out) -> In x (blocks_of out).
  Proof.
    intros x out I1. apply in_map_iff in I1. destruct I1 as (o & E & I1). destruct o as [r|n b]; [|discriminate E].
    injection E as ->. unfold blocks_of. apply in_flat_map. exists (OnBlock x). split; [exact I1|left; reflexivity].
  Qed.

  Lemma settle_shut : forall i n s s1 before d q s' e, (n < c_next (s_client s))%nat -> s_client s1 = s_client s ->
    (forall x, ~ In (EBlock x) before) ->
    (q_no q = n -> bars i q d) -> (q_no q <> n -> forall q' out, d = Some (q', out) ->
        (forall x, In x (blocks_of out) -> r_of x = q_no q) /\ forall q1, q' = Some q1 -> q_no q1 = q_no q) ->
    settle s1 before d = Some (s', e) -> shut i n s' /\ no_block_of i n e.
  Proof.
    intros i n s s1 before d q s' e LT EC BF H1 H2 E. unfold settle in E. destruct d as [[q' out]|]; [|discriminate E]. injection E as <- <-.
    destruct (Nat.eq_dec (q_no q) n) as [D|D].
    - destruct (H1 D q' out eq_refl) as (A1 & A2). split.
      + split; [cbn; rewrite EC; exact LT|]. cbn [s_client c_req]. intros q1 X _. exact (proj2 (A2 q1 X)).
      + apply no_block_app; [intros x I1; contradiction (BF x I1)|]. intros x I1 _. exact (proj1 (A1 x (blocks_in _ _ I1))).
    - destruct (H2 D q' out eq_refl) as (A1 & A2). split.
      + split; [cbn; rewrite EC; exact LT|]. cbn [s_client c_req]. intros q1 X Y. exfalso. apply D. rewrite <- Y. symmetry. exact (A2 q1 X).
      + apply no_block_app; [intros x I1; contradiction (BF x I1)|]. intros x I1 Y. exfalso. apply D. rewrite <- Y. symmetry. exact (A1 x (blocks_in _ _ I1)).
  Qed.

  (** No step changes the number of the request. *)
  Lemma comes_no : forall q d, comes parse false q d -> forall q' out, d = Some (q', out) ->
    (forall x, In x (blocks_of out) -> r_of x = q_no q) /\ forall q1, q' = Some q1 -> q_no q1 = q_no q.
  Proof.
    intros q d C q' out E. inversion C as [q1 V S1 G HD X|q1 r V S1 G HN HD RO PA RH RE X|HN X]; rewrite <- X in E; injection E as <- <-.
    - split; [intros x []|]. intros q2 E. injection E as <-. exact (g_no _ _ G).
    - split; [intros x [<- |[]]; exact RO|]. intros q2 E. injection E as <-. exact (g_no _ _ G).
    - split; [intros x []|discriminate].
  Qed.

  Lemma with_req_shut : forall i n s log f s' e, sinv false s log -> shut i n s ->
    (forall q, c_req (s_client s) = Some q -> comes parse false q (f q)) ->
    (forall q, c_req (s_client s) = Some q -> inv false q -> barred i q -> bars i q (f q)) ->
    with_req s f = Some (s', e) -> shut i n s' /\ no_block_of i n e.
  Proof.
    intros i n s log f s' e SI SH HC HB E. unfold with_req in E. destruct (c_req (s_client s)) as [q|] eqn:EQ.
    2: { injection E as <- <-. split; [exact SH|intros x []]. }
    destruct (si_req _ _ _ _ SI q EQ) as (V & _). destruct SH as (LT & SH).
    apply (settle_shut i n s s [] (f q) q s' e LT eq_refl); [intros x []| | |exact E].
    - intros X. apply HB; auto.
    - intros _. apply comes_no. apply HC. reflexivity.
  Qed.

  Lemma step_shut : forall i n s log o s' e, sinv false s log -> plain o -> (forall net, o <> Join net i) -> shut i n s ->
    step s o = Some (s', e) -> shut i n s' /\ no_block_of i n e.
  Proof.
    intros i n s log o s' e SI PL NJ SH E.
    destruct o as [net b en idl|net j|net j|net j m|net j no|net k|net k|]; cbn [FastSyncSpec.step plain] in *.
    - destruct (c_req (s_client s)) as [q|] eqn:EQ.
      { injection E as <- <-. split; [exact SH|intros x []]. }
      unfold fetch_blocks in E. rewrite EQ in E. cbv zeta in E.
      pose proof (begin_ok parse false (c_next (s_client s)) ((c_fetch (s_client s) + 1) mod 65536) b en idl PL) as V.
      match type of V with FastSyncInv.inv _ _ ?x => remember x as q0 eqn:E0 end.
      destruct (resched_ok parse net false q0 V) as (q & Eq & V' & K & S'); [discriminate|]. rewrite Eq in E. injection E as <- <-.
      split; [|intros x [X|[]]; discriminate X]. destruct SH as (LT & SH). split; [cbn; lia|]. cbn [s_client c_req]. intros q1 X Y.
      injection X as <-. exfalso. rewrite (k_no _ _ K) in Y. subst q0. cbn in Y. lia.
    - apply (with_req_shut i n s log _ s' e SI SH) in E; [exact E| |]; intros q EQ.
      + destruct (si_req _ _ _ _ SI q EQ) as (V & S1 & _).
        destruct (on_join_ok parse net false q j V S1 ltac:(discriminate)) as (q' & -> & V' & S' & G & P & _). apply c_goes; auto.
        unfold hd_pending. rewrite P. reflexivity.
      + intros V (B1 & B2). destruct (si_req _ _ _ _ SI q EQ) as (_ & S1 & _).
        destruct (on_join_ok parse net false q j V S1 ltac:(discriminate)) as (q' & -> & V' & S' & G & P & IDS & _).
        apply bars_goes; [exact (g_no _ _ G)|]. split; [|rewrite P; exact B2]. intros I1. destruct (IDS i I1) as [I2|X]; [exact (B1 I2)|].
        apply (NJ net). rewrite X. reflexivity.
    - apply (with_req_shut i n s log _ s' e SI SH) in E; [exact E| |]; intros q EQ.
      + destruct (si_req _ _ _ _ SI q EQ) as (V & S1 & _).
        destruct (on_leave_ok parse net false q j V S1 ltac:(discriminate)) as (q' & -> & V' & S' & G & P & _). apply c_goes; auto.
        unfold hd_pending. rewrite P. reflexivity.
      + intros V (B1 & B2). destruct (si_req _ _ _ _ SI q EQ) as (_ & S1 & _).
        destruct (on_leave_ok parse net false q j V S1 ltac:(discriminate)) as (q' & -> & V' & S' & G & P & IDS).
        apply bars_goes; [exact (g_no _ _ G)|]. split; [|rewrite P; exact B2]. intros I1. exact (B1 (proj1 (proj1 (IDS i) I1))).
    - apply (with_req_shut i n s log _ s' e SI SH) in E; [exact E| |]; intros q EQ; destruct (si_req _ _ _ _ SI q EQ) as (V & S1 & _).
      + apply receive_comes; [exact V|exact S1|discriminate].
      + intros _ B. apply receive_bars; assumption.
    - apply (with_req_shut i n s log _ s' e SI SH) in E; [exact E| |]; intros q EQ; destruct (si_req _ _ _ _ SI q EQ) as (V & S1 & _).
      + apply timer_comes; [exact V|exact S1|discriminate].
      + intros _ B. apply timer_bars; assumption.
    - destruct (nth_error (s_out s) k) as [r|] eqn:N.
      2: { injection E as <- <-. split; [exact SH|intros x []]. }
      cbv zeta in E. destruct (c_req (s_client s)) as [q|] eqn:EQ.
      2: { injection E as <- <-. split; [|intros x [X|[]]; discriminate X]. destruct SH as (LT & SH). split; [exact LT|].
           cbn [s_client]. rewrite EQ. discriminate. }
      destruct (Nat.eqb_spec (q_no q) (r_of r)) as [NO|NO].
      2: { injection E as <- <-. split; [|intros x [X|[]]; discriminate X]. destruct SH as (LT & SH). split; [exact LT|].
           cbn [s_client]. exact SH. }
      destruct (si_req _ _ _ _ SI q EQ) as (V & S1 & _ & _ & _ & OU). rewrite NO in OU. destruct (outs_drop _ _ _ _ N OU) as (HD & _).
      destruct SH as (LT & SH).
      assert (X : forall q' out, consume net q = Some (q', out) ->
         (forall x, In x (blocks_of out) -> In (Some x) (q_pending q)) /\ forall q1, q' = Some q1 -> q_no q1 = q_no q /\ fewer q q1).
      { intros q' out X. destruct (consume_ok parse net false q r V HD ltac:(discriminate)) as [(Y & _)|(q2 & Y & V2 & S2 & A1 & A2 & A3 & A4 & A5 & _)];
          rewrite Y in X; injection X as <- <-.
        - split; [intros x []|discriminate].
        - split.
          + destruct (hd_pending q2) as [y|] eqn:HY; [|intros x []]. intros x [<- |[]]. apply (proj2 A5). exact (nth_error_In _ _ (hd_nth _ _ HY)).
          + intros q1 Z1. injection Z1 as <-. auto. }
      apply (settle_shut i n s _ [EConsumed r] (consume net q) q s' e LT) in E; [exact E|reflexivity|intros x [Y|[]]; discriminate Y| |].
      + intros D q' out Y. destruct (X q' out Y) as (X1 & X2). specialize (SH q EQ D). split.
        * intros x I1. split; [exact (proj2 SH x (X1 x I1))|]. specialize (X1 x I1). apply In_nth_error in X1. destruct X1 as (z & Ez).
          exact (proj1 (proj2 (i_pend _ _ _ V z x Ez))).
        * intros q1 Z1. destruct (X2 q1 Z1) as (Z2 & Z3). split; [exact Z2|exact (fewer_barred _ _ _ Z3 SH)].
      + intros D q' out Y. destruct (X q' out Y) as (X1 & X2). split.
        * intros x I1. specialize (X1 x I1). apply In_nth_error in X1. destruct X1 as (z & Ez). exact (proj1 (proj2 (i_pend _ _ _ V z x Ez))).
        * intros q1 Z1. exact (proj1 (X2 q1 Z1)).
    - destruct (nth_error (s_out s) k) as [r|] eqn:N.
      2: { injection E as <- <-. split; [exact SH|intros x []]. }
      cbv zeta in E. destruct (c_req (s_client s)) as [q|] eqn:EQ.
      2: { injection E as <- <-. split; [|intros x [X|[]]; discriminate X]. destruct SH as (LT & SH). split; [exact LT|].
           cbn [s_client]. rewrite EQ. discriminate. }
      destruct (Nat.eqb_spec (q_no q) (r_of r)) as [NO|NO].
      2: { injection E as <- <-. split; [|intros x [X|[]]; discriminate X]. destruct SH as (LT & SH). split; [exact LT|].
           cbn [s_client]. exact SH. }
      destruct (si_req _ _ _ _ SI q EQ) as (V & S1 & _ & _ & _ & OU). rewrite NO in OU. destruct (outs_drop _ _ _ _ N OU) as (HD & _).
      destruct SH as (LT & SH).
      apply (settle_shut i n s _ [ERejected r] (reject net q r) q s' e LT) in E; [exact E|reflexivity|intros x [Y|[]]; discriminate Y| |];
        intros D; destruct (reject_ok parse net false q r V HD ltac:(discriminate)) as [(Y & _)|(q2 & Y & V2 & S2 & G & F1 & _)]; rewrite Y.
      + apply bars_end.
      + apply bars_goes; [exact (g_no _ _ G)|]. exact (fewer_barred _ _ _ F1 (SH q EQ D)).
      + intros q' out X. injection X as <- <-. split; [intros x []|discriminate].
      + intros q' out X. injection X as <- <-. split; [intros x []|]. intros q1 X. injection X as <-. exact (g_no _ _ G).
    - destruct (c_req (s_client s)) as [q|] eqn:EQ; injection E as <- <-.
      + destruct SH as (LT & SH). split; [|intros x [X|[]]; discriminate X]. split; [exact LT|discriminate].
      + split; [exact SH|intros x []].
  Qed.

  Lemma run_shut : forall i n l s log s' e, sinv false s log -> Forall plain l -> (forall net, ~ In (Join net i) l) -> shut i n s ->
    run s l = Some (s', e) -> no_block_of i n e.
  Proof.
    intros i n. induction l as [|o l IH]; intros s log s' e SI PL NJ SH E; cbn [FastSyncSpec.run] in E.
    - injection E as <- <-. intros x [].
    - inversion PL as [|a c P1 P2]. subst a c. destruct (step s o) as [[s1 e1]|] eqn:E1; [|discriminate E].
      destruct (run s1 l) as [[s2 e2]|] eqn:E2; [|discriminate E]. injection E as <- <-.
      destruct (step_ok parse false s log o SI P1 ltac:(discriminate)) as (s1' & e1' & E1' & SI1). rewrite E1 in E1'. injection E1' as <- <-.
      destruct (step_shut i n s log o s1 e1 SI P1) with (2 := SH) (3 := E1) as (SH1 & NB1).
      { intros net X. apply (NJ net). left. exact X. }
      apply no_block_app; [exact NB1|]. apply (IH s1 _ s2 e2 SI1 P2); [|exact SH1|exact E2]. intros net X. apply (NJ net). right. exact X.
  Qed.

  Lemma rejected_shut : forall s log net k r s' e, sinv false s log -> nth_error (s_out s) k = Some r ->
    step s (Reject net k) = Some (s', e) -> shut (r_peer r) (r_of r) s' /\ exists e', e = ERejected r :: e' /\ forall x, ~ In (EBlock x) e'.
  Proof.
    intros s log net k r s' e SI N E. cbn [FastSyncSpec.step] in E. rewrite N in E. cbv zeta in E.
    assert (LT : (r_of r < c_next (s_client s))%nat).
    { destruct (Nat.lt_ge_cases (r_of r) (c_next (s_client s))) as [L|G]; [exact L|exfalso].
      destruct (si_new _ _ _ _ SI _ G) as (_ & O1). destruct (outs_drop _ _ _ None N O1) as (X & _). discriminate X. }
    destruct (c_req (s_client s)) as [q|] eqn:EQ.
    2: { injection E as <- <-. split; [|exists []; split; [reflexivity|intros x []]]. split; [exact LT|]. cbn [s_client]. rewrite EQ. discriminate. }
    destruct (Nat.eqb_spec (q_no q) (r_of r)) as [NO|NO].
    2: { injection E as <- <-. split; [|exists []; split; [reflexivity|intros x []]]. split; [exact LT|]. cbn [s_client]. rewrite EQ. intros q0 X Y.
         injection X as <-. contradiction. }
    destruct (si_req _ _ _ _ SI q EQ) as (V & S1 & _ & _ & _ & OU). rewrite NO in OU. destruct (outs_drop _ _ _ _ N OU) as (HD & _).
    destruct (reject_ok parse net false q r V HD ltac:(discriminate)) as [(Y & _)|(q2 & Y & V2 & S2 & G & F1 & _ & B1 & B2)];
      rewrite Y in E; injection E as <- <-.
    - split; [split; [exact LT|discriminate]|]. eexists. split; [reflexivity|]. intros x [X|[]]; discriminate X.
    - split; [|exists []; split; [reflexivity|intros x []]]. split; [exact LT|]. cbn [s_client c_req]. intros q1 X _. injection X as <-. split; assumption.
  Qed.
  (** ** From the phases *)

  Lemma follows_block : forall n p l p' r, follows parse n p l p' -> In (EBlock r) l -> r_of r = n -> parse (r_data r) = Some (r_height r).
  Proof.
    intros n p l p' r F. induction F as [p|p e l p' NE F IH|p e p1 l p' M F IH]; intros I1 E; [destruct I1| |].
    - destruct I1 as [-> |I1]; [contradiction|auto].
    - destruct I1 as [-> |I1]; [|auto]. inversion M as [| | | | | |x y _ EV]; subst; [assumption|destruct EV as [EV|EV]; discriminate EV].
  Qed.

  Lemma follows_over : forall n w l p', follows parse n (Over w) l p' ->
    forall e, In e l -> number e = n -> exists r, e = EConsumed r \/ e = ERejected r.
  Proof.
    intros n w l p' F. remember (Over w) as p eqn:Ep. revert w Ep. induction F as [p|p e l p' NE F IH|p e p1 l p' M F IH]; intros w Ep x I1 E; [destruct I1| |].
    - destruct I1 as [-> |I1]; [contradiction|exact (IH w Ep x I1 E)].
    - subst p. inversion M as [| | | | | |r ev RO EV]; subst. destruct I1 as [<- |I1]; [exists r; exact EV|apply (IH None eq_refl x I1); congruence].
  Qed.

  Lemma follows_split : forall n p a b p', follows parse n p (a ++ b) p' -> exists p1, follows parse n p a p1 /\ follows parse n p1 b p'.
  Proof.
    intros n p a. revert p. induction a as [|e a IH]; intros p b p' F; cbn [app] in F.
    - exists p. split; [apply f_nil|exact F].
    - inversion F as [|p0 e0 l0 p0' NE F' |p0 e0 p1 l0 p0' M F']; subst; destruct (IH _ _ _ F') as (p2 & F2 & F3); exists p2; (split; [|exact F3]).
      + apply f_other; assumption.
      + eapply f_move; eassumption.
  Qed.

  Lemma over_after : forall n p ev l p', follows parse n p (ev :: l) p' -> (exists b, ev = EEnd n b) \/ ev = ECancel n ->
    exists w, follows parse n (Over w) l p'.
  Proof.
    intros n p ev l p' F EV. inversion F as [|p0 e0 l0 p0' NE F'|p0 e0 p1 l0 p0' M F']; subst.
    - exfalso. apply NE. destruct EV as [(b & ->)| ->]; reflexivity.
    - inversion M as [b e E1 E2|r e RO PA LE|r h e RO|r h e RO|h e err|w h e|r ev' RO EV']; subst;
        try (destruct EV as [(b0 & X)|X]; discriminate X).
      + eexists. exact F'.
      + eexists. exact F'.
      + exfalso. destruct EV as [(b0 & X)|X]; destruct EV' as [Y|Y]; rewrite Y in X; discriminate X.
  Qed.

  (** ** How it ends well *)

  Lemma error_end : forall net q k p f nb q' out n, inv false q -> nth_error (q_peers q) k = Some p -> p_f p = Some f ->
    on_error net q k (p_id p) f nb = Some (q', out) -> ~ In (OnEnd n false) out.
  Proof.
    intros net q k p f nb q' out n V N E X.
    destruct (on_error_ok parse net false q k p f nb V N E ltac:(discriminate)) as [(Y & _)|(q2 & Y & _)]; rewrite Y in X; injection X as <- <-.
    - intros [Z|[]]; discriminate Z.
    - intros [].
  Qed.

  Lemma comes_end : forall q d q' out n, comes parse false q d -> d = Some (q', out) -> ~ In (OnEnd n false) out.
  Proof.
    intros q d q' out n C E. inversion C as [q1 V S1 G HD X|q1 r V S1 G HN HD RO PA RH RE X|HN X]; rewrite <- X in E; injection E as <- <-;
      cbn; intuition discriminate.
  Qed.

  Lemma end_in : forall n b out, In (EEnd n b) (map event_of out) -> In (OnEnd n b) out.
  Proof.
    intros n b out I1. apply in_map_iff in I1. destruct I1 as (o & E & I1). destruct o as [r|m c]; [discriminate E|]. injection E as -> ->. exact I1.
  Qed.

  Lemma with_req_end : forall s log f s' e n, sinv false s log ->
    (forall q, c_req (s_client s) = Some q -> comes parse false q (f q)) ->
    with_req s f = Some (s', e) -> ~ In (EEnd n false) e.
  Proof.
    intros s log f s' e n SI HC E. unfold with_req in E. destruct (c_req (s_client s)) as [q|] eqn:EQ; [|injection E as <- <-; intros []].
    unfold settle in E. specialize (HC q eq_refl). destruct (f q) as [[q' out]|] eqn:EF; [|discriminate E]. injection E as <- <-. cbn [app].
    intros I1. exact (comes_end _ _ _ _ n HC eq_refl (end_in _ _ _ I1)).
  Qed.

  Lemma ends_well : forall s log o s' e n, sinv false s log -> plain o -> step s o = Some (s', e) -> In (EEnd n false) e ->
    exists net k r q, o = Consume net k /\ nth_error (s_out s) k = Some r /\ c_req (s_client s) = Some q /\ q_no q = n /\ r_of r = n
      /\ r_height r = q_offset q /\ (h_end (q_hs q) <= r_height r \/ (q_peers q = [] /\ nth 1 (q_pending q) None = None)).
  Proof.
    intros s log o s' e n SI PL E I1.
    destruct o as [net b en idl|net j|net j|net j m|net j no|net k|net k|]; cbn [FastSyncSpec.step plain] in *.
    - exfalso. destruct (c_req (s_client s)); [injection E as <- <-; destruct I1|]. destruct (fetch_blocks _ _ _ _ _); [|discriminate E].
      injection E as <- <-. destruct I1 as [X|[]]; discriminate X.
    - exfalso. revert I1. apply (with_req_end s log _ s' e n SI) with (2 := E). intros q EQ.
      destruct (si_req _ _ _ _ SI q EQ) as (V & S1 & _).
      destruct (on_join_ok parse net false q j V S1 ltac:(discriminate)) as (q' & -> & V' & S' & G & P & _). apply c_goes; auto.
      unfold hd_pending. rewrite P. reflexivity.
    - exfalso. revert I1. apply (with_req_end s log _ s' e n SI) with (2 := E). intros q EQ.
      destruct (si_req _ _ _ _ SI q EQ) as (V & S1 & _).
      destruct (on_leave_ok parse net false q j V S1 ltac:(discriminate)) as (q' & -> & V' & S' & G & P & _). apply c_goes; auto.
      unfold hd_pending. rewrite P. reflexivity.
    - exfalso. revert I1. apply (with_req_end s log _ s' e n SI) with (2 := E). intros q EQ.
      destruct (si_req _ _ _ _ SI q EQ) as (V & S1 & _). apply receive_comes; [exact V|exact S1|discriminate].
    - exfalso. revert I1. apply (with_req_end s log _ s' e n SI) with (2 := E). intros q EQ.
      destruct (si_req _ _ _ _ SI q EQ) as (V & S1 & _). apply timer_comes; [exact V|exact S1|discriminate].
    - destruct (nth_error (s_out s) k) as [r|] eqn:N; [|injection E as <- <-; destruct I1]. cbv zeta in E.
      destruct (c_req (s_client s)) as [q|] eqn:EQ; [|injection E as <- <-; destruct I1 as [X|[]]; discriminate X].
      destruct (Nat.eqb_spec (q_no q) (r_of r)) as [NO|NO]; [|injection E as <- <-; destruct I1 as [X|[]]; discriminate X].
      destruct (si_req _ _ _ _ SI q EQ) as (V & S1 & _ & _ & _ & OU). rewrite NO in OU. destruct (outs_drop _ _ _ _ N OU) as (HD & _).
      destruct (i_pend _ _ _ V 0%nat r (hd_nth _ _ HD)) as (RH & _). change (Z.of_nat 0) with 0 in RH.
      destruct (consume_ok parse net false q r V HD ltac:(discriminate)) as [(Y & C)|(q2 & Y & _)]; rewrite Y in E; injection E as <- <-.
      + destruct I1 as [X|[X|[]]]; [discriminate X|]. cbn in X. injection X as X.
        exists net, k, r, q. split; [reflexivity|]. split; [exact N|]. split; [reflexivity|]. split; [exact X|]. split; [congruence|].
        split; [lia|]. destruct C as [C|C]; [left; lia|right; exact C].
      + exfalso. destruct I1 as [X|I1]; [discriminate X|]. apply end_in in I1. destruct (hd_pending q2); [destruct I1 as [X|[]]; discriminate X|destruct I1].
    - exfalso. destruct (nth_error (s_out s) k) as [r|] eqn:N; [|injection E as <- <-; destruct I1]. cbv zeta in E.
      destruct (c_req (s_client s)) as [q|] eqn:EQ; [|injection E as <- <-; destruct I1 as [X|[]]; discriminate X].
      destruct (Nat.eqb_spec (q_no q) (r_of r)) as [NO|NO]; [|injection E as <- <-; destruct I1 as [X|[]]; discriminate X].
      destruct (si_req _ _ _ _ SI q EQ) as (V & S1 & _ & _ & _ & OU). rewrite NO in OU. destruct (outs_drop _ _ _ _ N OU) as (HD & _).
      destruct (reject_ok parse net false q r V HD ltac:(discriminate)) as [(Y & _)|(q2 & Y & _)]; rewrite Y in E; injection E as <- <-.
      + destruct I1 as [X|[X|[]]]; discriminate X.
      + destruct I1 as [X|[]]; discriminate X.
    - exfalso. destruct (c_req (s_client s)); injection E as <- <-; [|destruct I1]. destruct I1 as [X|[]]; discriminate X.
  Qed.
End More.
