(** Requests which end when everyone is silent, and requests which never end. *)
From Coq Require Import ZArith List Bool Arith Lia Permutation.
From Verif Require Import Model.Bytes Model.FastSync Spec.FastSyncSpec Proof.FastSyncFacts Proof.FastSyncInv Proof.FastSyncOps Proof.FastSyncSteps
  Proof.FastSyncSys.
Import ListNotations.
Open Scope Z_scope.

Definition always_sent : peer_id -> outcome := fun _ => Sent.

Section Dead.
  Variable parse : bytes -> option Z.
  Local Notation inv := (inv parse).
  Local Notation step := (step parse).
  Local Notation run := (run parse).
  Local Notation sinv := (sinv parse).

  Lemma find_own : forall (g : peer -> bool) l p, In p l -> g p = true ->
    (forall x, In x l -> g x = true -> x = p) -> exists k, find_peer g l = Some (k, p) /\ nth_error l k = Some p.
  Proof.
    induction l as [|x l IH]; intros p I1 G U; [destruct I1|]. cbn [find_peer]. destruct (g x) eqn:E.
    - assert (x = p) by (apply U; [left; reflexivity|exact E]). subst x. exists O. split; reflexivity.
    - destruct I1 as [-> |I1]; [rewrite G in E; discriminate E|].
      destruct (IH p I1 G) as (k & Ek & Nk); [intros y I2; apply U; right; exact I2|]. rewrite Ek. exists (S k). split; [reflexivity|exact Nk].
  Qed.

  Lemma same_id : forall q x p, NoDup (ids q) -> In x (q_peers q) -> In p (q_peers q) -> p_id x = p_id p -> x = p.
  Proof.
    intros q x p ND I1 I2 E. unfold ids in ND. revert ND I1 I2. induction (q_peers q) as [|y l IH]; intros ND I1 I2; [destruct I1|].
    cbn [map] in ND. inversion ND as [|a b NI ND']. subst a b. destruct I1 as [-> |I1], I2 as [-> |I2]; auto.
    - exfalso. apply NI. rewrite E. apply in_map. exact I2.
    - exfalso. apply NI. rewrite <- E. apply in_map. exact I1.
  Qed.

  Lemma armed_found : forall q p f, inv true q -> In p (q_peers q) -> p_f p = Some f ->
    exists k, find_peer (fun x => has_id (p_id p) x && match p_f x with Some g => Nat.eqb (f_no g) (f_no f) | None => false end) (q_peers q) = Some (k, p)
      /\ nth_error (q_peers q) k = Some p.
  Proof.
    intros q p f V I1 E. apply find_own; [exact I1| |].
    - unfold has_id. rewrite Nat.eqb_refl, E, Nat.eqb_refl. reflexivity.
    - intros x I2 G. apply andb_true_iff in G. apply (same_id q); [exact (i_ids _ _ _ V)|exact I2|exact I1|]. exact (has_id_eq _ _ (proj1 G)).
  Qed.

  (** Firing the timer of a peer which has been sent the request. *)
  Lemma fire : forall s log q p f net, sinv true s log -> c_req (s_client s) = Some q -> In p (q_peers q) -> p_f p = Some f ->
    f_timer f = Some ForResponse -> (forall j, j <> p_id p -> net j <> Failed) ->
    (exists s', step s (Timer net (p_id p) (f_no f)) = Some (s', [EEnd (q_no q) true]) /\ c_req (s_client s') = None)
    \/ exists s' q', step s (Timer net (p_id p) (f_no f)) = Some (s', []) /\ c_req (s_client s') = Some q' /\ s_out s' = s_out s
         /\ q_no q' = q_no q /\ length (q_peers q) = S (length (q_peers q')) /\ ~ In (p_id p) (ids q')
         /\ hd_pending q' = hd_pending q.
  Proof.
    intros s log q p f net SI EQ I1 E ET NF. cbn [FastSyncSpec.step]. unfold with_req. rewrite EQ.
    destruct (si_req _ _ _ _ SI q EQ) as (V & _). destruct (armed_found q p f V I1 E) as (k & F & N).
    unfold on_timer. rewrite F. destruct p as [pi pr pf]. cbn [p_f p_id] in *. subst pf. rewrite ET.
    destruct (on_error_ok parse net true q k (mkPeer pi pr (Some f)) f false V N eq_refl) as [(X & HN & HP)|(q' & X & V' & S' & G & F1 & HD & NI & L)].
    { intros _. exact NF. }
    - left. cbn [p_id] in X. rewrite X. cbn [settle map event_of app]. eexists. split; reflexivity.
    - right. cbn [p_id] in X. rewrite X. cbn [settle map event_of app blocks_of flat_map]. rewrite app_nil_r.
      eexists _, q'. split; [reflexivity|]. split; [reflexivity|]. split; [reflexivity|]. split; [exact (g_no _ _ G)|].
      split; [exact L|]. split; [exact NI|exact HD].
  Qed.

  (** Firing the timer of one which has not. *)
  Lemma fire_send : forall s log q p f, sinv true s log -> c_req (s_client s) = Some q -> In p (q_peers q) -> p_f p = Some f ->
    f_timer f = Some ForSend ->
    exists s' q' f', step s (Timer always_sent (p_id p) (f_no f)) = Some (s', []) /\ c_req (s_client s') = Some q' /\ s_out s' = s_out s
      /\ q_no q' = q_no q /\ In (mkPeer (p_id p) (p_req p) (Some f')) (q_peers q') /\ f_timer f' = Some ForResponse /\ f_no f' = f_no f
      /\ length (q_peers q') = length (q_peers q) /\ hd_pending q' = hd_pending q.
  Proof.
    intros s log q p f SI EQ I1 E ET. cbn [FastSyncSpec.step]. unfold with_req. rewrite EQ.
    destruct (si_req _ _ _ _ SI q EQ) as (V & _). destruct (armed_found q p f V I1 E) as (k & F & N).
    unfold on_timer. rewrite F. destruct p as [pi pr pf]. cbn [p_f p_id p_req] in *. subst pf. rewrite ET. cbn [always_sent].
    cbn [settle map event_of app blocks_of flat_map]. rewrite app_nil_r. eexists _, _, _. split; [reflexivity|]. split; [reflexivity|].
    split; [reflexivity|]. split; [reflexivity|]. destruct (nth_split' _ _ _ _ N) as (a & c & EA & LA).
    unfold set_fetcher. cbn [with_peers q_peers p_id p_req]. rewrite EA, <- LA, set_nth_split. split; [apply in_or_app; right; left; reflexivity|].
    split; [reflexivity|]. split; [reflexivity|]. split; [rewrite !app_length; reflexivity|reflexivity].
  Qed.

  Definition timer_only (o : op) : Prop := exists i no, o = Timer always_sent i no.

  Lemma silence_ends : forall n s log q, sinv true s log -> c_req (s_client s) = Some q -> length (q_peers q) = n -> q_peers q <> [] ->
    outs (q_no q) (s_out s) = [] ->
    exists l s' e, Forall timer_only l /\ run s l = Some (s', e) /\ In (EEnd (q_no q) true) e.
  Proof.
    induction n as [|n IH]; intros s log q SI EQ LN NP NO.
    { destruct (q_peers q); [contradiction NP; reflexivity|discriminate LN]. }
    destruct (progress parse s log q SI EQ NP NO) as (i & no & p & f & I1 & EI & E & EN & ET). subst i no.
    assert (GO : forall s q p f log, sinv true s log -> c_req (s_client s) = Some q -> length (q_peers q) = S n -> outs (q_no q) (s_out s) = [] ->
      In p (q_peers q) -> p_f p = Some f -> f_timer f = Some ForResponse ->
      exists l s' e, Forall timer_only l /\ run s l = Some (s', e) /\ In (EEnd (q_no q) true) e).
    { clear s q p f log SI EQ LN NP NO I1 E ET. intros s q p f log SI EQ LN NO I1 E ET.
      destruct (fire s log q p f always_sent SI EQ I1 E ET) as [(s' & ST & _)|(s' & q' & ST & EQ' & SO & NQ & L & _ & HD)]; [discriminate| |].
      - exists [Timer always_sent (p_id p) (f_no f)], s', [EEnd (q_no q) true]. split; [constructor; [eexists _, _; reflexivity|constructor]|].
        split; [|left; reflexivity]. cbn [FastSyncSpec.run]. rewrite ST. reflexivity.
      - destruct (step_ok parse true s log (Timer always_sent (p_id p) (f_no f)) SI Logic.I) as (s1 & e1 & ST1 & SI1); [intros _ j _; discriminate|].
        rewrite ST in ST1. injection ST1 as <- <-.
        destruct (q_peers q') as [|y ys] eqn:EP.
        + exfalso. (* no peers left and nothing waiting: it would have ended *)
          destruct (si_req _ _ _ _ SI q EQ) as (V & _ & _ & _ & _ & OU). rewrite NO in OU.
          assert (HN : hd_pending q = None) by (destruct (hd_pending q); [discriminate OU|reflexivity]).
          cbn [FastSyncSpec.step] in ST. unfold with_req in ST. rewrite EQ in ST. destruct (armed_found q p f V I1 E) as (k & F & N).
          unfold on_timer in ST. rewrite F in ST. destruct p as [pi pr pf]. cbn [p_f p_id] in *. subst pf. rewrite ET in ST.
          unfold on_error in ST. pose proof (fetching_in parse true q _ f V I1 eq_refl) as B. rewrite hs_add_ok in ST; [|lia].
          cbv zeta in ST. unfold with_hs, with_peers, with_pending in ST. cbn [q_pending q_hs q_peers] in ST. unfold hd_pending in HN.
          pose proof (i_len _ _ _ V) as LP. destruct (q_pending q) as [|o l] eqn:EPD; [discriminate LP|]. cbn [hd] in HN. subst o.
          assert (RP : remove_peer k (q_peers q) = []).
          { pose proof (Permutation_length (remove_perm _ _ _ N)) as PL. cbn [length] in PL, L. rewrite PL in L.
            destruct (remove_peer k (q_peers q)); [reflexivity|discriminate L]. }
          rewrite RP in ST. destruct (give_up _ _ _) as [[l' hs']|]; cbn [option_map] in ST; [|discriminate ST].
          cbn [hd_pending hd q_pending settle map event_of app] in ST. discriminate ST.
        + destruct (IH s' _ q' SI1 EQ') as (l & s2 & e2 & FT & RU & IE).
          * rewrite EP. cbn [length] in L |- *. lia.
          * rewrite EP. discriminate.
          * rewrite SO, NQ. exact NO.
          * exists (Timer always_sent (p_id p) (f_no f) :: l), s2, e2. split; [constructor; [eexists _, _; reflexivity|exact FT]|].
            split; [|rewrite <- NQ; exact IE]. cbn [FastSyncSpec.run]. rewrite ST, RU. reflexivity. }
    destruct (f_timer f) as [[|]|] eqn:ETM; [|exact (GO s q p f log SI EQ LN NO I1 E ETM)|contradiction ET; reflexivity].
    destruct (fire_send s log q p f SI EQ I1 E ETM) as (s' & q' & f' & ST & EQ' & SO & NQ & IP & ET' & _ & L & HD).
    destruct (step_ok parse true s log (Timer always_sent (p_id p) (f_no f)) SI Logic.I) as (s1 & e1 & ST1 & SI1); [intros _ j _; discriminate|].
    rewrite ST in ST1. injection ST1 as <- <-.
    assert (LN' : length (q_peers q') = S n) by (rewrite L; exact LN).
    assert (NO' : outs (q_no q') (s_out s') = []) by (rewrite SO, NQ; exact NO).
    destruct (GO s' q' (mkPeer (p_id p) (p_req p) (Some f')) f' _ SI1 EQ' LN' NO' IP eq_refl ET') as (l & s2 & e2 & FT & RU & IE).
    exists (Timer always_sent (p_id p) (f_no f) :: l), s2, e2. split; [constructor; [eexists _, _; reflexivity|exact FT]|].
    split; [|rewrite <- NQ; exact IE]. cbn [FastSyncSpec.run]. rewrite ST, RU. reflexivity.
  Qed.

  (** ** Requests which never end *)

  (** Nothing is fetched, nothing can be. *)
  Record dead (q : request) : Prop := {
    d_idle : forall p, In p (q_peers q) -> p_f p = None;
    d_act : q_active q = 0;
    d_low : get_lowest (q_hs q) = None \/ exists l, get_lowest (q_hs q) = Some l /\ q_offset q + Z.of_nat (length (q_pending q)) <= l
  }.

  Lemma dead_resched : forall net q, dead q -> resched net q = Some q.
  Proof.
    intros net q D. unfold resched. cbn [reschedule]. rewrite (d_act _ D). change (3 <=? 0) with false. cbn iota.
    destruct (Z.of_nat (length (q_peers q)) =? 0); [reflexivity|].
    destruct (d_low _ D) as [-> |(l & -> & LE)]; [reflexivity|]. apply Z.leb_le in LE. rewrite LE. reflexivity.
  Qed.

  Lemma find_dead : forall g q i, dead q -> (forall p, g p = true -> p_f p <> None) ->
    find_peer (fun p => has_id i p && g p) (q_peers q) = None.
  Proof.
    intros g q i D H. destruct (find_peer _ (q_peers q)) as [[k p]|] eqn:F; [exfalso|reflexivity].
    destruct (found _ _ _ _ _ F) as (N & _ & G). exact (H p G (d_idle _ D p (nth_error_In _ _ N))).
  Qed.

  Definition stuck (n : nat) (s : sys) : Prop :=
    (exists q, c_req (s_client s) = Some q /\ q_no q = n /\ dead q) /\ outs n (s_out s) = [].

  (** The request neither ends nor gives a block. *)
  Definition silent (n : nat) (e : list event) : Prop :=
    (forall b, ~ In (EEnd n b) e) /\ (forall r, r_of r = n -> ~ In (EBlock r) e).

  Lemma silent_nil : forall n, silent n [].
  Proof. intros n. split; [intros b []|intros r _ []]. Qed.

  Lemma step_stuck : forall n s o, stuck n s -> o <> Cancel -> exists s' e, step s o = Some (s', e) /\ stuck n s' /\ silent n e.
  Proof.
    intros n s o ((q & EQ & NQ & D) & OU) NC.
    assert (ST : exists s' e, Some (s, @nil event) = Some (s', e) /\ stuck n s' /\ silent n e).
    { exists s, []. split; [reflexivity|]. split; [|apply silent_nil]. split; [exists q; auto|exact OU]. }
    assert (SE : forall q', q_no q' = n -> dead q' -> exists s' e, settle s [] (Some (Some q', [])) = Some (s', e) /\ stuck n s' /\ silent n e).
    { intros q' E D'. unfold settle. cbn [map app blocks_of flat_map]. eexists _, _. split; [reflexivity|]. split; [|apply silent_nil].
      split; [exists q'; auto|]. cbn [s_out]. rewrite app_nil_r. exact OU. }
    assert (AN : forall k r, nth_error (s_out s) k = Some r -> q_no q <> r_of r).
    { intros k r N E. rewrite NQ in E. rewrite E in OU. destruct (outs_drop _ _ _ None N OU) as (X & _). discriminate X. }
    assert (LA : forall k r ev, nth_error (s_out s) k = Some r -> ev = EConsumed r \/ ev = ERejected r ->
       exists s' e, Some (mkSys (s_client s) (drop_nth k (s_out s)), [ev]) = Some (s', e) /\ stuck n s' /\ silent n e).
    { intros k r ev N EV. eexists _, _. split; [reflexivity|]. split.
      - split; [exists q; auto|]. cbn [s_out]. rewrite (outs_drop_other _ _ _ _ N); [exact OU|]. rewrite <- NQ. intros X. exact (AN k r N (eq_sym X)).
      - split; [intros b [X|[]]; destruct EV as [-> | ->]; discriminate X|intros x _ [X|[]]; destruct EV as [-> | ->]; discriminate X]. }
    destruct o as [net b en idl|net j|net j|net j m|net j no|net k|net k|]; cbn [FastSyncSpec.step]; unfold with_req; rewrite ?EQ; try exact ST.
    - unfold on_join. destruct (existsb _ _); [exact (SE q NQ D)|].
      assert (D' : dead (with_peers q (q_peers q ++ [mkPeer j 0 None]) (q_active q))).
      { destruct D as [A B C]. constructor; cbn [with_peers q_peers q_active q_hs q_offset q_pending]; [|exact B|exact C].
        intros p I1. apply in_app_iff in I1. destruct I1 as [I1|[<- |[]]]; [exact (A p I1)|reflexivity]. }
      rewrite dead_resched; [|exact D']. exact (SE (with_peers q (q_peers q ++ [mkPeer j 0 None]) (q_active q)) NQ D').
    - unfold on_leave. destruct (find_peer (has_id j) (q_peers q)) as [[k p]|] eqn:F; [|exact (SE q NQ D)].
      destruct (find_peer_spec _ _ _ _ F) as (N & _). rewrite (d_idle _ D p (nth_error_In _ _ N)).
      apply (SE (with_peers q (remove_peer k (q_peers q)) (q_active q)) NQ). destruct D as [A B C]. constructor; cbn [with_peers q_peers q_active q_hs q_offset q_pending]; [|exact B|exact C].
      intros x I1. exact (A x (removed_in _ _ _ _ N I1)).
    - unfold on_receive. rewrite find_dead; [exact (SE q NQ D)|exact D|]. intros p. destruct (p_f p); [discriminate|discriminate].
    - unfold on_timer. rewrite find_dead; [exact (SE q NQ D)|exact D|]. intros p. destruct (p_f p); discriminate.
    - destruct (nth_error (s_out s) k) as [r|] eqn:N; [|exact ST]. cbv zeta.
      destruct (Nat.eqb_spec (q_no q) (r_of r)) as [NO|NO]; [contradiction (AN k r N NO)|]. apply (LA k r); auto.
    - destruct (nth_error (s_out s) k) as [r|] eqn:N; [|exact ST]. cbv zeta.
      destruct (Nat.eqb_spec (q_no q) (r_of r)) as [NO|NO]; [contradiction (AN k r N NO)|]. apply (LA k r); auto.
    - contradiction NC. reflexivity.
  Qed.

  Lemma stuck_forever : forall n l s, stuck n s -> ~ In Cancel l ->
    exists s' e, run s l = Some (s', e) /\ stuck n s' /\ silent n e.
  Proof.
    intros n. induction l as [|o l IH]; intros s H NC; cbn [FastSyncSpec.run].
    - exists s, []. split; [reflexivity|]. split; [exact H|apply silent_nil].
    - destruct (step_stuck n s o H) as (s1 & e1 & E1 & H1 & S1); [intros ->; apply NC; left; reflexivity|].
      destruct (IH s1 H1) as (s2 & e2 & E2 & H2 & S2); [intros X; apply NC; right; exact X|].
      rewrite E1, E2. exists s2, (e1 ++ e2). split; [reflexivity|]. split; [exact H2|]. destruct S1 as (A1 & A2), S2 as (B1 & B2). split.
      + intros b I1. apply in_app_iff in I1. destruct I1 as [I1|I1]; [exact (A1 b I1)|exact (B1 b I1)].
      + intros r R I1. apply in_app_iff in I1. destruct I1 as [I1|I1]; [exact (A2 r R I1)|exact (B2 r R I1)].
  Qed.

  (** ** A peer whose request was never sent *)

  Lemma busy_stays : forall k net q q' p f, reschedule k net q = Some q' -> In p (q_peers q) -> p_f p = Some f -> In p (q_peers q').
  Proof.
    induction k as [|k IH]; intros net q q' p f E I1 EF; cbn [reschedule] in E; [injection E as <-; exact I1|].
    destruct (3 <=? q_active q); [injection E as <-; exact I1|].
    destruct (_ =? q_active q); [injection E as <-; exact I1|].
    destruct (get_lowest (q_hs q)) as [l|]; [|injection E as <-; exact I1].
    destruct (_ <=? l); [injection E as <-; exact I1|].
    destruct (give _ (q_peers q)) as [ps|] eqn:G; [|discriminate E].
    apply (IH _ _ _ p f E); [|exact EF]. cbn [q_peers]. destruct (give_spec _ _ _ G) as (a & x & b & EA & EN & ->).
    rewrite EA in I1. apply in_app_iff in I1. apply in_or_app. destruct I1 as [I1|[-> |I1]]; [left; exact I1|rewrite EN in EF; discriminate EF|].
    right. right. exact I1.
  Qed.

  (** The peer [i] keeps the height which comes next and will never give it. *)
  Definition blocked (i : peer_id) (q : request) : Prop :=
    exists p f, In p (q_peers q) /\ p_id p = i /\ p_f p = Some f /\ f_step f = FFin /\ f_timer f = None /\ f_height f = q_offset q.

  Lemma other_stays : forall k l p x, nth_error l k = Some p -> In x l -> x <> p -> In x (remove_peer k l).
  Proof.
    intros k l p x N I1 NE. destruct (Permutation_in x (remove_perm _ _ _ N) I1) as [X|I2]; [congruence|exact I2].
  Qed.

  Definition holds (i : peer_id) (q : request) (d : done) : Prop :=
    exists q', d = Some (Some q', []) /\ blocked i q' /\ q_no q' = q_no q /\ hd_pending q' = hd_pending q.

  Lemma error_holds : forall net q k p f nb i, inv false q -> hd_pending q = None -> blocked i q -> nth_error (q_peers q) k = Some p -> p_f p = Some f ->
    p_id p <> i -> holds i q (on_error net q k (p_id p) f nb).
  Proof.
    intros net q k p f nb i V HN (pb & fb & I1 & EI & EF & B1 & B2 & B3) N E NI.
    destruct (on_error_ok parse net false q k p f nb V N E ltac:(discriminate)) as [(X & _ & HP)|(q' & X & V' & S' & G & F1 & HD & _)].
    { exfalso. rewrite HP in I1. destruct I1 as [<- |[]]. exact (NI EI). }
    exists q'. split; [exact X|]. split; [|split; [exact (g_no _ _ G)|exact HD]].
    exists pb, fb. rewrite (g_off _ _ G). split; [|auto 10].
    assert (NE : pb <> p) by (intros ->; exact (NI EI)).
    pose proof (other_stays _ _ _ _ N I1 NE) as I2.
    unfold on_error in X. destruct (hs_add (q_hs q) (f_height f)) as [hs|]; [|discriminate X]. cbv zeta in X.
    match type of X with match ?y with _ => _ end = _ => destruct y as [[pd hs2]|]; [|discriminate X] end.
    unfold with_hs, with_peers, with_pending in X. cbn [q_peers] in X.
    destruct (remove_peer k (q_peers q)) as [|y ys] eqn:R; [destruct I2|]. rewrite <- R in *.
    destruct (resched net _) as [q2|] eqn:RS; [|discriminate X]. cbn [go_on] in X. injection X as <-.
    unfold resched in RS. exact (busy_stays _ _ _ _ pb fb RS I2 EF).
  Qed.

  Lemma set_holds : forall q k p f f' i, blocked i q -> nth_error (q_peers q) k = Some p -> p_f p = Some f -> p_id p <> i ->
    holds i q (Some (Some (set_fetcher q k p f'), [])).
  Proof.
    intros q k p f f' i (pb & fb & I1 & EI & EF & B) N E NI. eexists. split; [reflexivity|]. split; [|split; reflexivity].
    exists pb, fb. split; [|auto]. unfold set_fetcher. cbn [with_peers q_peers]. destruct (nth_split' _ _ _ _ N) as (a & c & EA & <-).
    rewrite EA, set_nth_split. rewrite EA in I1. apply in_app_iff in I1. apply in_or_app.
    destruct I1 as [I1|[X|I1]]; [left; exact I1|subst pb; contradiction|right; right; exact I1].
  Qed.

  Lemma receive_holds : forall net q j m i, inv false q -> hd_pending q = None -> blocked i q -> holds i q (on_receive parse net q j m).
  Proof.
    intros net q j m i V HN B. unfold on_receive.
    assert (ST : holds i q (Some (Some q, []))) by (exists q; auto).
    destruct (find_peer _ (q_peers q)) as [[k p]|] eqn:F; [|exact ST].
    destruct (found _ _ _ _ _ F) as (N & EI & _). destruct p as [pi pr [f|]]; [|exact ST]. cbn [p_id] in EI. subst pi.
    remember (mkPeer j pr (Some f)) as p eqn:Ep.
    assert (PF : p_f p = Some f) by (subst p; reflexivity). assert (PI : p_id p = j) by (subst p; reflexivity).
    assert (FN : f_step f = FFin \/ p_id p <> i).
    { destruct (Nat.eq_dec (p_id p) i) as [X|X]; [left|right; exact X]. destruct B as (pb & fb & I1 & E1 & E2 & E3 & _).
      assert (pb = p) by (apply (same_id q); [exact (i_ids _ _ _ V)|exact I1|exact (nth_error_In _ _ N)|congruence]). subst pb. congruence. }
    destruct FN as [FN|FN]; [rewrite FN; destruct m; exact ST|].
    assert (ER : forall nb, holds i q (on_error net q k j f nb)).
    { intros nb. rewrite <- PI. exact (error_holds net q k p f nb i V HN B N PF FN). }
    destruct (f_step f), m as [req len proof|req data]; try exact ST.
    - destruct (negb (req =? f_req f)); [exact ST|]. destruct (len <? 0); [apply ER|]. apply (set_holds q k p f); auto.
    - destruct (negb (req =? f_req f)); [exact ST|]. cbv zeta.
      destruct (f_left f - Z.of_nat (length data) =? 0).
      + destruct (parse (concat (f_data f ++ [data]))) as [h|] eqn:EP; [|apply ER].
        destruct (h =? f_height f) eqn:EH; [|apply ER]. apply Z.eqb_eq in EH. subst h.
        destruct (on_block_ok parse net false q k p f (concat (f_data f ++ [data])) (f_votes f) V N PF EP ltac:(discriminate))
          as (q' & r & E & Er & V' & S' & G & ID & PE & HB).
        rewrite PI in E. pose proof E as E'. rewrite E. destruct B as (pb & fb & I1 & E1 & E2 & E3 & E4 & E5).
        assert (NZ : f_height f - q_offset q <> 0).
        { intros Z0. pose proof (i_cnt _ _ _ V (q_offset q)) as C. pose proof (room_le1 q (q_offset q)) as R1. unfold cnt in C.
          assert (NE : pb <> p) by (intros ->; exact (FN E1)).
          rewrite (sumf_perm _ (fh (q_offset q)) _ _ (remove_perm _ _ _ N)), sumf_cons in C.
          pose proof (sumf_in _ (fh (q_offset q)) pb _ (other_stays _ _ _ _ N I1 NE)) as C2. unfold fh at 1 in C. unfold fh at 1 in C2.
          rewrite PF in C. rewrite E2, E5 in C2. replace (f_height f) with (q_offset q) in C by lia. rewrite same_eq in C, C2. lia. }
        apply Z.eqb_neq in NZ. rewrite NZ in *. exists q'. split; [reflexivity|]. split; [|split; [exact (g_no _ _ G)|exact HB]].
        exists pb, fb. rewrite (g_off _ _ G). split; [|auto 10].
        unfold on_block in E'. rewrite N in E'. cbv zeta in E'. destruct ((_ <? 0) || _); [discriminate E'|].
        destruct (resched net _) as [q2|] eqn:RS; [|discriminate E']. injection E' as <- _.
        apply (busy_stays _ _ _ _ pb fb RS); [|exact E2]. cbn [with_pending with_peers q_peers].
        destruct (nth_split' _ _ _ _ N) as (a & c & EA & <-). rewrite EA, set_nth_split. rewrite EA in I1. apply in_app_iff in I1. apply in_or_app.
        destruct I1 as [I1|[X|I1]]; [left; exact I1|subst pb; contradiction|right; right; exact I1].
      + destruct (_ <? 0); [apply ER|]. apply (set_holds q k p f); auto.
  Qed.

  Lemma timer_holds : forall net q j no i, inv false q -> hd_pending q = None -> blocked i q -> holds i q (on_timer net q j no).
  Proof.
    intros net q j no i V HN B. unfold on_timer.
    assert (ST : holds i q (Some (Some q, []))) by (exists q; auto).
    destruct (find_peer _ (q_peers q)) as [[k p]|] eqn:F; [|exact ST].
    destruct (found _ _ _ _ _ F) as (N & EI & _). destruct p as [pi pr [f|]]; [|exact ST]. cbn [p_id] in EI. subst pi.
    remember (mkPeer j pr (Some f)) as p eqn:Ep.
    assert (PF : p_f p = Some f) by (subst p; reflexivity). assert (PI : p_id p = j) by (subst p; reflexivity).
    assert (FN : f_timer f = None \/ p_id p <> i).
    { destruct (Nat.eq_dec (p_id p) i) as [X|X]; [left|right; exact X]. destruct B as (pb & fb & I1 & E1 & E2 & _ & E4 & _).
      assert (pb = p) by (apply (same_id q); [exact (i_ids _ _ _ V)|exact I1|exact (nth_error_In _ _ N)|congruence]). subst pb. congruence. }
    destruct FN as [FN|FN]; [rewrite FN; exact ST|].
    assert (ER : forall nb, holds i q (on_error net q k j f nb)).
    { intros nb. rewrite <- PI. exact (error_holds net q k p f nb i V HN B N PF FN). }
    destruct (f_timer f) as [[|]|]; [|apply ER|exact ST].
    destruct (net j); [|exact ST|apply ER]. apply (set_holds q k p f); auto.
  Qed.

  Definition waits (i : peer_id) (n : nat) (s : sys) : Prop :=
    exists q, c_req (s_client s) = Some q /\ q_no q = n /\ blocked i q /\ hd_pending q = None.

  Lemma step_waits : forall i n s log o, sinv false s log -> waits i n s -> plain o -> o <> Cancel -> (forall net, o <> Leave net i) ->
    exists s' e, step s o = Some (s', e) /\ waits i n s' /\ silent n e.
  Proof.
    intros i n s log o SI (q & EQ & NQ & B & HN) PL NC NL.
    destruct (si_req _ _ _ _ SI q EQ) as (V & S1 & _ & _ & _ & OU).
    assert (ST : exists s' e, Some (s, @nil event) = Some (s', e) /\ waits i n s' /\ silent n e).
    { exists s, []. split; [reflexivity|]. split; [exists q; auto|apply silent_nil]. }
    assert (SE : forall d, holds i q d -> exists s' e, settle s [] d = Some (s', e) /\ waits i n s' /\ silent n e).
    { intros d (q' & -> & B' & E & H'). unfold settle. cbn [map app blocks_of flat_map]. eexists _, _. split; [reflexivity|]. split; [|apply silent_nil].
      exists q'. split; [reflexivity|]. split; [congruence|]. split; [exact B'|congruence]. }
    rewrite HN in OU. cbn [olist] in OU.
    assert (AN : forall k r, nth_error (s_out s) k = Some r -> q_no q <> r_of r).
    { intros k r N E. rewrite E in OU. destruct (outs_drop _ _ _ None N OU) as (X & _). discriminate X. }
    assert (LA : forall k r ev, nth_error (s_out s) k = Some r -> ev = EConsumed r \/ ev = ERejected r ->
       exists s' e, Some (mkSys (s_client s) (drop_nth k (s_out s)), [ev]) = Some (s', e) /\ waits i n s' /\ silent n e).
    { intros k r ev N EV. eexists _, _. split; [reflexivity|]. split; [exists q; auto|].
      split; [intros b [X|[]]; destruct EV as [-> | ->]; discriminate X|intros x _ [X|[]]; destruct EV as [-> | ->]; discriminate X]. }
    destruct o as [net b en idl|net j|net j|net j m|net j no|net k|net k|]; cbn [FastSyncSpec.step]; unfold with_req; rewrite ?EQ; try exact ST.
    - apply SE. destruct (on_join_ok parse net false q j V S1 ltac:(discriminate)) as (q' & X & V' & S' & G & P & _). pose proof X as X'. rewrite X.
      exists q'. split; [reflexivity|]. split; [|split; [exact (g_no _ _ G)|unfold hd_pending; rewrite P; reflexivity]].
      destruct B as (pb & fb & I1 & E1 & E2 & B). exists pb, fb. rewrite (g_off _ _ G). split; [|auto].
      unfold on_join in X'. destruct (existsb _ _); [injection X' as <-; exact I1|]. apply (busy_stays _ _ _ _ pb fb X'); [|exact E2].
      cbn [with_peers q_peers]. apply in_or_app. left. exact I1.
    - apply SE. destruct (on_leave_ok parse net false q j V S1 ltac:(discriminate)) as (q' & X & V' & S' & G & P & _). pose proof X as X'. rewrite X.
      exists q'. split; [reflexivity|]. split; [|split; [exact (g_no _ _ G)|unfold hd_pending; rewrite P; reflexivity]].
      destruct B as (pb & fb & I1 & E1 & E2 & B). exists pb, fb. rewrite (g_off _ _ G). split; [|auto].
      unfold on_leave in X'. destruct (find_peer (has_id j) (q_peers q)) as [[k p]|] eqn:F; [|injection X' as <-; exact I1].
      destruct (find_peer_spec _ _ _ _ F) as (N & HI). apply has_id_eq in HI.
      assert (NE : pb <> p). { intros ->. apply (NL net). congruence. }
      pose proof (other_stays _ _ _ _ N I1 NE) as I2.
      destruct (p_f p); [|injection X' as <-; exact I2]. destruct (hs_add _ _); [|discriminate X'].
      exact (busy_stays _ _ _ _ pb fb X' I2 E2).
    - apply SE. apply receive_holds; assumption.
    - apply SE. apply timer_holds; assumption.
    - destruct (nth_error (s_out s) k) as [r|] eqn:N; [|exact ST]. cbv zeta.
      destruct (Nat.eqb_spec (q_no q) (r_of r)) as [NO|NO]; [contradiction (AN k r N NO)|]. apply (LA k r); auto.
    - destruct (nth_error (s_out s) k) as [r|] eqn:N; [|exact ST]. cbv zeta.
      destruct (Nat.eqb_spec (q_no q) (r_of r)) as [NO|NO]; [contradiction (AN k r N NO)|]. apply (LA k r); auto.
    - contradiction NC. reflexivity.
  Qed.

  Lemma waits_forever : forall i n l s log, sinv false s log -> waits i n s -> Forall plain l -> ~ In Cancel l -> (forall net, ~ In (Leave net i) l) ->
    exists s' e, run s l = Some (s', e) /\ waits i n s' /\ silent n e.
  Proof.
    intros i n. induction l as [|o l IH]; intros s log SI H PL NC NL; cbn [FastSyncSpec.run].
    - exists s, []. split; [reflexivity|]. split; [exact H|apply silent_nil].
    - inversion PL as [|x y P1 P2]. subst x y.
      destruct (step_waits i n s log o SI H P1) as (s1 & e1 & E1 & H1 & S1).
      { intros ->. apply NC. left. reflexivity. }
      { intros net ->. apply (NL net). left. reflexivity. }
      destruct (step_ok parse false s log o SI P1 ltac:(discriminate)) as (s1' & e1' & E1' & SI1). rewrite E1 in E1'. injection E1' as <- <-.
      destruct (IH s1 _ SI1 H1 P2) as (s2 & e2 & E2 & H2 & S2).
      { intros X. apply NC. right. exact X. }
      { intros net X. apply (NL net). right. exact X. }
      rewrite E1, E2. exists s2, (e1 ++ e2). split; [reflexivity|]. split; [exact H2|]. destruct S1 as (A1 & A2), S2 as (B1 & B2). split.
      + intros b I1. apply in_app_iff in I1. destruct I1 as [I1|I1]; [exact (A1 b I1)|exact (B1 b I1)].
      + intros r R I1. apply in_app_iff in I1. destruct I1 as [I1|I1]; [exact (A2 r R I1)|exact (B2 r R I1)].
  Qed.
End Dead.
