(** Histories of the client which fetches blocks. *)
From Coq Require Import ZArith List Bool Arith Lia Permutation.
From Verif Require Import Model.Bytes Model.FastSync Spec.FastSyncSpec Proof.FastSyncFacts Proof.FastSyncInv Proof.FastSyncOps Proof.FastSyncSteps.
Import ListNotations.
Open Scope Z_scope.

Section Sys.
  Variable parse : bytes -> option Z.
  Local Notation inv := (inv parse).
  Local Notation step := (step parse).
  Local Notation run := (run parse).
  Local Notation follows := (follows parse).
  Local Notation moves := (moves parse).

  Lemma follows_app : forall n p l p1, follows n p l p1 -> forall l' p2, follows n p1 l' p2 -> follows n p (l ++ l') p2.
  Proof.
    intros n p l p1 H. induction H; intros l' p2 H2; cbn [app]; [exact H2| |].
    - apply f_other; auto.
    - eapply f_move; eauto.
  Qed.

  Lemma others : forall n p l, Forall (fun e => number e <> n) l -> follows n p l p.
  Proof. intros n p l H. induction H; [apply f_nil|]. apply f_other; assumption. Qed.

  Definition outs (n : nat) (s : list result) : list result := filter (fun r => Nat.eqb (r_of r) n) s.
  Definition olist {A} (o : option A) : list A := match o with Some x => [x] | None => [] end.

  Lemma outs_drop_other : forall n l k r, nth_error l k = Some r -> r_of r <> n -> outs n (drop_nth k l) = outs n l.
  Proof.
    intros n l k r H NE. destruct (nth_split' _ _ _ _ H) as (a & b & -> & <-). rewrite drop_nth_split. unfold outs.
    rewrite !filter_app. cbn [filter]. replace (Nat.eqb (r_of r) n) with false; [reflexivity|]. symmetry. apply Nat.eqb_neq. exact NE.
  Qed.

  Lemma outs_drop : forall l k r w, nth_error l k = Some r -> outs (r_of r) l = olist w ->
    w = Some r /\ outs (r_of r) (drop_nth k l) = [].
  Proof.
    intros l k r w H E. destruct (nth_split' _ _ _ _ H) as (a & b & -> & <-). rewrite drop_nth_split. unfold outs in *.
    rewrite filter_app in *. cbn [filter] in E. rewrite Nat.eqb_refl in E.
    destruct w as [x|]; cbn [olist] in E.
    - destruct (filter (fun r0 => Nat.eqb (r_of r0) (r_of r)) a) as [|y ys].
      + cbn [app] in *. injection E as <- E. split; [reflexivity|exact E].
      + exfalso. cbn [app] in E. injection E as _ E. destruct ys; discriminate E.
    - exfalso. destruct (filter (fun r0 => Nat.eqb (r_of r0) (r_of r)) a); discriminate E.
  Qed.

  Record sinv (b : bool) (s : sys) (log : list event) : Prop := {
    si_req : forall q, c_req (s_client s) = Some q ->
      inv b q /\ sat q /\ (q_no q < c_next (s_client s))%nat /\ (b = true -> q_offset q <= h_end (q_hs q))
      /\ follows (q_no q) NotYet log (Running (hd_pending q) (q_offset q) (h_end (q_hs q)))
      /\ outs (q_no q) (s_out s) = olist (hd_pending q);
    si_new : forall n, (c_next (s_client s) <= n)%nat -> follows n NotYet log NotYet /\ outs n (s_out s) = [];
    si_old : forall n, (n < c_next (s_client s))%nat -> (forall q, c_req (s_client s) = Some q -> q_no q <> n) ->
      exists w, follows n NotYet log (Over w) /\ outs n (s_out s) = olist w
  }.

  (** What a step which is no answer may come to. *)
  Inductive comes (b : bool) (q : request) : done -> Prop :=
  | c_goes q' : inv b q' -> sat q' -> goes q q' -> hd_pending q' = hd_pending q -> comes b q (Some (Some q', []))
  | c_block q' r : inv b q' -> sat q' -> goes q q' -> hd_pending q = None -> hd_pending q' = Some r ->
      r_of r = q_no q -> parse (r_data r) = Some (r_height r) -> r_height r = q_offset q -> r_height r <= h_end (q_hs q) ->
      comes b q (Some (Some q', [OnBlock r]))
  | c_end : hd_pending q = None -> comes b q (Some (None, [OnEnd (q_no q) true])).

  Lemma error_comes : forall net b q k p f nb, inv b q -> nth_error (q_peers q) k = Some p -> p_f p = Some f ->
    (b = true -> forall j, j <> p_id p -> net j <> Failed) -> comes b q (on_error net q k (p_id p) f nb).
  Proof.
    intros net b q k p f nb V N E NF. destruct (on_error_ok parse net b q k p f nb V N E NF) as [(-> & H & _)|(q' & -> & V' & S' & G & _ & H & _)].
    - apply c_end. exact H.
    - apply c_goes; assumption.
  Qed.

  Lemma found : forall g i q k p, find_peer (fun p => has_id i p && g p) (q_peers q) = Some (k, p) ->
    nth_error (q_peers q) k = Some p /\ p_id p = i /\ g p = true.
  Proof.
    intros g i q k p H. destruct (find_peer_spec _ _ _ _ H) as (N & B). apply andb_true_iff in B. destruct B as [B1 B2].
    split; [exact N|]. split; [exact (has_id_eq _ _ B1)|exact B2].
  Qed.

  Lemma goes_refl : forall q, goes q q.
  Proof. intros q. constructor; reflexivity. Qed.

  Lemma set_comes : forall b q k p f f', inv b q -> sat q -> nth_error (q_peers q) k = Some p -> p_f p = Some f ->
    f_height f' = f_height f -> (f_timer f <> None -> f_timer f' <> None) -> comes b q (Some (Some (set_fetcher q k p f'), [])).
  Proof.
    intros b q k p f f' V S1 N E EH ET. destruct (set_fetcher_ok parse b q k p f f' V N E EH ET) as (V' & _ & S').
    apply c_goes; [exact V'|exact (S' S1)|constructor; reflexivity|reflexivity].
  Qed.

  Lemma receive_comes : forall net b q i m, inv b q -> sat q -> (b = true -> never_fails net) -> comes b q (on_receive parse net q i m).
  Proof.
    intros net b q i m V S1 NF. unfold on_receive.
    assert (ST : comes b q (Some (Some q, []))) by (apply c_goes; auto using goes_refl).
    destruct (find_peer _ (q_peers q)) as [[k p]|] eqn:F; [|exact ST].
    destruct (found _ _ _ _ _ F) as (N & EI & _). destruct p as [pi pr [f|]]; [|exact ST]. cbn [p_id] in EI. subst pi.
    remember (mkPeer i pr (Some f)) as p eqn:Ep.
    assert (PF : p_f p = Some f) by (subst p; reflexivity). assert (PI : p_id p = i) by (subst p; reflexivity).
    assert (NF' : b = true -> forall j, j <> p_id p -> net j <> Failed) by (intros Eb j _; exact (NF Eb j)).
    assert (ER : forall nb, comes b q (on_error net q k i f nb)).
    { intros nb. rewrite <- PI. exact (error_comes net b q k p f nb V N PF NF'). }
    destruct (f_step f), m as [req len proof|req data]; try exact ST.
    - destruct (negb (req =? f_req f)); [exact ST|]. destruct (len <? 0); [apply ER|].
      apply (set_comes b q k p f); auto.
    - destruct (negb (req =? f_req f)); [exact ST|]. cbv zeta.
      destruct (f_left f - Z.of_nat (length data) =? 0).
      + destruct (parse (concat (f_data f ++ [data]))) as [h|] eqn:EP; [|apply ER].
        destruct (h =? f_height f) eqn:EH; [|apply ER]. apply Z.eqb_eq in EH. subst h.
        destruct (on_block_ok parse net b q k p f (concat (f_data f ++ [data])) (f_votes f) V N PF EP NF)
          as (q' & r & E & Er & V' & S' & G & _ & _ & HB).
        rewrite PI in E. rewrite E. destruct (f_height f - q_offset q =? 0) eqn:E0.
        * apply Z.eqb_eq in E0. destruct HB as (H1 & H2 & H3). apply c_block; auto; subst r; cbn; auto. lia.
        * apply c_goes; assumption.
      + destruct (_ <? 0); [apply ER|]. apply (set_comes b q k p f); auto.
  Qed.

  Lemma timer_comes : forall net b q i no, inv b q -> sat q -> (b = true -> forall j, j <> i -> net j <> Failed) ->
    comes b q (on_timer net q i no).
  Proof.
    intros net b q i no V S1 NF. unfold on_timer.
    assert (ST : comes b q (Some (Some q, []))) by (apply c_goes; auto using goes_refl).
    destruct (find_peer _ (q_peers q)) as [[k p]|] eqn:F; [|exact ST].
    destruct (found _ _ _ _ _ F) as (N & EI & _). destruct p as [pi pr [f|]]; [|exact ST]. cbn [p_id] in EI. subst pi.
    remember (mkPeer i pr (Some f)) as p eqn:Ep.
    assert (PF : p_f p = Some f) by (subst p; reflexivity). assert (PI : p_id p = i) by (subst p; reflexivity).
    rewrite <- PI in NF.
    assert (ER : forall nb, comes b q (on_error net q k i f nb)).
    { intros nb. rewrite <- PI. exact (error_comes net b q k p f nb V N PF NF). }
    destruct (f_timer f) as [[|]|] eqn:ET; [|apply ER|exact ST].
    destruct (net i); [|exact ST|apply ER].
    apply (set_comes b q k p f); auto. discriminate.
  Qed.

  Lemma outs_app : forall n a b, outs n (a ++ b) = outs n a ++ outs n b.
  Proof. intros n a b. apply filter_app. Qed.

  Lemma with_req_ok : forall b s log f, sinv b s log ->
    (forall q, c_req (s_client s) = Some q -> comes b q (f q)) ->
    exists s' e, with_req s f = Some (s', e) /\ sinv b s' (log ++ e).
  Proof.
    intros b s log f SI H. unfold with_req. destruct (c_req (s_client s)) as [q|] eqn:EQ.
    2: { exists s, []. split; [reflexivity|]. rewrite app_nil_r. exact SI. }
    destruct (si_req _ _ _ SI q EQ) as (V & S1 & LT & AL & FO & OU).
    specialize (H q eq_refl). unfold settle.
    inversion H as [q' V' S' G HD E|q' r V' S' G HN HD RO PA RH RE E|HN E]; rewrite <- E in *; cbn [map event_of blocks_of flat_map app] in *.
    - eexists _, _. split; [reflexivity|]. rewrite !app_nil_r. constructor; cbn [s_client c_req c_next s_out].
      + intros q0 E0. injection E0 as <-. rewrite (g_no _ _ G), (g_off _ _ G), (g_end _ _ G), HD. auto 10.
      + intros n LE. exact (si_new _ _ _ SI n LE).
      + intros n LN NE. apply (si_old _ _ _ SI n LN). intros q0 E0. rewrite EQ in E0. injection E0 as <-.
        rewrite <- (g_no _ _ G). exact (NE q' eq_refl).
    - eexists _, _. split; [reflexivity|]. constructor; cbn [s_client c_req c_next s_out].
      + intros q0 E0. injection E0 as <-. rewrite (g_no _ _ G), (g_off _ _ G), (g_end _ _ G), HD. split; [exact V'|]. split; [exact S'|].
        split; [exact LT|]. split; [exact AL|]. split.
        * eapply follows_app; [exact FO|]. rewrite HN, <- RH. eapply f_move; [apply m_block; assumption|apply f_nil].
        * rewrite outs_app, OU, HN. cbn [olist app outs filter]. rewrite RO, Nat.eqb_refl. reflexivity.
      + intros n LE. destruct (si_new _ _ _ SI n LE) as (F1 & O1). assert (NE : r_of r <> n) by lia. split.
        * eapply follows_app; [exact F1|]. apply others. constructor; [exact NE|constructor].
        * rewrite outs_app, O1. cbn [outs filter app]. replace (Nat.eqb (r_of r) n) with false; [reflexivity|]. symmetry. apply Nat.eqb_neq. exact NE.
      + intros n LN NE. assert (NE' : r_of r <> n). { rewrite RO, <- (g_no _ _ G). exact (NE q' eq_refl). }
        destruct (si_old _ _ _ SI n LN) as (w & F1 & O1).
        { intros q0 E0. rewrite EQ in E0. injection E0 as <-. rewrite <- RO. exact NE'. }
        exists w. split.
        * eapply follows_app; [exact F1|]. apply others. constructor; [exact NE'|constructor].
        * rewrite outs_app, O1. cbn [outs filter]. replace (Nat.eqb (r_of r) n) with false; [apply app_nil_r|]. symmetry. apply Nat.eqb_neq. exact NE'.
    - eexists _, _. split; [reflexivity|]. rewrite app_nil_r. constructor; cbn [s_client c_req c_next s_out].
      + discriminate.
      + intros n LE. destruct (si_new _ _ _ SI n LE) as (F1 & O1). split; [|exact O1].
        eapply follows_app; [exact F1|]. apply others. constructor; [cbn; lia|constructor].
      + intros n LN _. destruct (Nat.eq_dec (q_no q) n) as [<- |NE].
        * exists None. split; [|rewrite OU, HN; reflexivity]. eapply follows_app; [exact FO|]. rewrite HN.
          eapply f_move; [apply m_end|apply f_nil].
        * destruct (si_old _ _ _ SI n LN) as (w & F1 & O1).
          { intros q0 E0. rewrite EQ in E0. injection E0 as <-. exact NE. }
          exists w. split; [|exact O1]. eapply follows_app; [exact F1|]. apply others. constructor; [exact NE|constructor].
  Qed.

  (** An answer to a block of a request which is over. *)
  Lemma late_ok : forall b s log n r ev, sinv b s log -> nth_error (s_out s) n = Some r ->
    ev = EConsumed r \/ ev = ERejected r -> (forall q, c_req (s_client s) = Some q -> q_no q <> r_of r) ->
    sinv b (mkSys (s_client s) (drop_nth n (s_out s))) (log ++ [ev]).
  Proof.
    intros b s log n r ev SI N EV NC.
    assert (NM : number ev = r_of r) by (destruct EV as [-> | ->]; reflexivity).
    assert (LT : (r_of r < c_next (s_client s))%nat).
    { destruct (Nat.lt_ge_cases (r_of r) (c_next (s_client s))) as [L|G]; [exact L|exfalso].
      destruct (si_new _ _ _ SI _ G) as (_ & O1). destruct (outs_drop _ _ _ None N O1) as (E & _). discriminate E. }
    assert (OT : forall m p, m <> r_of r -> follows m NotYet log p -> follows m NotYet (log ++ [ev]) p).
    { intros m p NE F1. eapply follows_app; [exact F1|]. apply others. constructor; [rewrite NM; congruence|constructor]. }
    constructor; cbn [s_client s_out].
    - intros q EQ. destruct (si_req _ _ _ SI q EQ) as (V & S1 & L & AL & FO & OU). specialize (NC q EQ).
      split; [exact V|]. split; [exact S1|]. split; [exact L|]. split; [exact AL|]. split; [apply OT; assumption|].
      rewrite (outs_drop_other _ _ _ _ N); [exact OU|congruence].
    - intros m LE. destruct (si_new _ _ _ SI m LE) as (F1 & O1). split; [apply OT; [lia|exact F1]|].
      rewrite (outs_drop_other _ _ _ _ N); [exact O1|lia].
    - intros m LM NE. destruct (si_old _ _ _ SI m LM NE) as (w & F1 & O1). destruct (Nat.eq_dec m (r_of r)) as [-> |D].
      + destruct (outs_drop _ _ _ w N O1) as (-> & O2). exists None. split; [|exact O2].
        eapply follows_app; [exact F1|]. eapply f_move; [eapply m_late; [reflexivity|exact EV]|apply f_nil].
      + exists w. split; [apply OT; assumption|]. rewrite (outs_drop_other _ _ _ _ N); [exact O1|congruence].
  Qed.

  (** An answer to a block of the request which runs. *)
  Lemma answer_ok : forall b s log n r ev q d, sinv b s log -> nth_error (s_out s) n = Some r -> c_req (s_client s) = Some q ->
    q_no q = r_of r -> number ev = r_of r ->
    (forall p h e, p = Running (Some r) h e -> h = q_offset q -> e = h_end (q_hs q) -> hd_pending q = Some r ->
      (d = Some (None, [OnEnd (q_no q) (match ev with EConsumed _ => false | _ => true end)])
         /\ exists h', moves (q_no q) p ev (Running None h' e))
      \/ exists q', d = Some (Some q', match hd_pending q' with Some r => [OnBlock r] | None => [] end)
         /\ inv b q' /\ sat q' /\ q_no q' = q_no q /\ h_end (q_hs q') = h_end (q_hs q) /\ (b = true -> q_offset q' <= h_end (q_hs q'))
         /\ moves (q_no q) p ev (Running None (q_offset q') e)) ->
    exists s' e, settle (mkSys (s_client s) (drop_nth n (s_out s))) [ev] d = Some (s', e) /\ sinv b s' (log ++ e).
  Proof.
    intros b s log n r ev q d SI N EQ NO NM H.
    destruct (si_req _ _ _ SI q EQ) as (V & S1 & LT & AL & FO & OU).
    rewrite NO in OU. destruct (outs_drop _ _ _ _ N OU) as (HD & O2). rewrite <- NO in *. rewrite HD in FO.
    assert (OT : forall m p e, m <> q_no q -> Forall (fun e => number e = q_no q) e -> follows m NotYet log p -> follows m NotYet (log ++ e) p).
    { intros m p e NE FA F1. eapply follows_app; [exact F1|]. apply others. eapply Forall_impl; [|exact FA]. intros a -> ; congruence. }
    assert (OO : forall m, m <> q_no q -> outs m (drop_nth n (s_out s)) = outs m (s_out s)).
    { intros m NE. apply (outs_drop_other _ _ _ _ N). congruence. }
    destruct (H _ _ _ eq_refl eq_refl eq_refl HD) as [(-> & h' & M)|(q' & -> & V' & S' & NQ & HE & AL' & M)]; clear H.
    - unfold settle. cbn [blocks_of flat_map map event_of app]. eexists _, _. split; [reflexivity|]. rewrite app_nil_r.
      assert (FA : Forall (fun e => number e = q_no q) [ev; EEnd (q_no q) (match ev with EConsumed _ => false | _ => true end)]).
      { constructor; [exact NM|constructor; [reflexivity|constructor]]. }
      constructor; cbn [s_client s_out c_req c_next].
      + discriminate.
      + intros m LE. destruct (si_new _ _ _ SI m LE) as (F1 & O1). assert (NE : m <> q_no q) by lia.
        split; [apply OT; assumption|]. rewrite OO; assumption.
      + intros m LM _. destruct (Nat.eq_dec m (q_no q)) as [-> |NE].
        * exists None. split; [|exact O2]. eapply follows_app; [exact FO|]. eapply f_move; [exact M|]. eapply f_move; [apply m_end|apply f_nil].
        * destruct (si_old _ _ _ SI m LM) as (w & F1 & O1).
          { intros q0 E0. rewrite EQ in E0. injection E0 as <-. congruence. }
          exists w. split; [apply OT; assumption|]. rewrite OO; assumption.
    - unfold settle. eexists _, _. split; [reflexivity|].
      assert (FA : Forall (fun e => number e = q_no q) ([ev] ++ map event_of (match hd_pending q' with Some r => [OnBlock r] | None => [] end))).
      { apply Forall_app. split; [constructor; [exact NM|constructor]|]. destruct (hd_pending q') as [x|] eqn:HX; [|constructor].
        constructor; [|constructor]. cbn. destruct (i_pend _ _ _ V' 0%nat x (hd_nth _ _ HX)) as (_ & X & _). congruence. }
      constructor; cbn [s_client s_out c_req c_next].
      + intros q0 E0. injection E0 as <-. rewrite NQ, HE. split; [exact V'|]. split; [exact S'|]. split; [exact LT|].
        split; [rewrite <- HE; exact AL'|]. split.
        * eapply follows_app; [exact FO|]. cbn [app]. eapply f_move; [exact M|].
          destruct (hd_pending q') as [x|] eqn:HX; [|apply f_nil]. cbn [map event_of].
          destruct (i_pend _ _ _ V' 0%nat x (hd_nth _ _ HX)) as (X1 & X2 & X3). change (Z.of_nat 0) with 0 in X1. rewrite Z.add_0_r in X1.
          rewrite <- X1. eapply f_move; [|apply f_nil]. apply m_block; [congruence|exact X3|].
          pose proof (pending_in parse b q' x V' (nth_error_In _ _ (hd_nth _ _ HX))) as B. pose proof (i_top _ _ _ V'). lia.
        * rewrite outs_app, O2. destruct (hd_pending q') as [x|] eqn:HX; [|reflexivity]. cbn.
          destruct (i_pend _ _ _ V' 0%nat x (hd_nth _ _ HX)) as (_ & X2 & _). rewrite X2, NQ, Nat.eqb_refl. reflexivity.
      + intros m LE. destruct (si_new _ _ _ SI m LE) as (F1 & O1). assert (NE : m <> q_no q) by lia.
        split; [apply OT; assumption|]. rewrite outs_app, OO, O1; [|exact NE]. destruct (hd_pending q') as [x|] eqn:HX; [|reflexivity]. cbn.
        destruct (i_pend _ _ _ V' 0%nat x (hd_nth _ _ HX)) as (_ & X2 & _). replace (Nat.eqb (r_of x) m) with false; [reflexivity|].
        symmetry. apply Nat.eqb_neq. congruence.
      + intros m LM NN. assert (NE : m <> q_no q). { intros ->. exact (NN q' eq_refl NQ). }
        destruct (si_old _ _ _ SI m LM) as (w & F1 & O1).
        { intros q0 E0. rewrite EQ in E0. injection E0 as <-. congruence. }
        exists w. split; [apply OT; assumption|]. rewrite outs_app, OO, O1; [|exact NE]. destruct (hd_pending q') as [x|] eqn:HX; [|apply app_nil_r]. cbn.
        destruct (i_pend _ _ _ V' 0%nat x (hd_nth _ _ HX)) as (_ & X2 & _). replace (Nat.eqb (r_of x) m) with false; [apply app_nil_r|].
        symmetry. apply Nat.eqb_neq. congruence.
  Qed.
  Lemma sumf_zero : forall A (g : A -> nat) l, (forall x, In x l -> g x = O) -> sumf g l = O.
  Proof.
    induction l as [|x l IH]; intros H; [reflexivity|]. rewrite sumf_cons, (H x (or_introl eq_refl)), IH; [reflexivity|].
    intros y I1. exact (H y (or_intror I1)).
  Qed.

  Lemma begin_ok : forall bb no fid b e idl, NoDup idl ->
    inv bb (mkReq no fid (mkHeights b e []) (map (fun i => mkPeer i 0 None) idl) 0 b (repeat None 10) 0).
  Proof.
    intros bb no fid b e idl ND.
    match goal with |- FastSyncInv.inv _ _ ?x => remember x as q eqn:Eq end.
    assert (IDL : forall p, In p (q_peers q) -> p_f p = None).
    { intros p I1. subst q. cbn [q_peers] in I1. apply in_map_iff in I1. destruct I1 as (i & <- & _). reflexivity. }
    assert (C : forall h, cnt q h = O).
    { intros h. unfold cnt. rewrite (sumf_zero _ (fh h) (q_peers q)); [subst q; reflexivity|].
      intros p I1. unfold fh. rewrite (IDL p I1). reflexivity. }
    assert (R : forall h, room q h = O).
    { intros h. subst q. unfold room. cbn. destruct (Z.leb_spec b h), (Z.ltb_spec h b); cbn; lia. }
    constructor.
    - rewrite (sumf_zero _ bz); [subst q; reflexivity|]. intros p I1. unfold bz. rewrite (IDL p I1). reflexivity.
    - subst q. cbn [q_peers]. rewrite map_map. cbn [p_id]. rewrite map_id. exact ND.
    - subst q. reflexivity.
    - intros k r H. exfalso. subst q. cbn [q_pending] in H. apply nth_error_In in H.
      apply repeat_spec in H. discriminate H.
    - intros h. rewrite C. lia.
    - intros _ h. rewrite C, R. reflexivity.
    - intros _ p f I1 E. rewrite (IDL p I1) in E. discriminate E.
    - intros p f I1 E. rewrite (IDL p I1) in E. discriminate E.
    - subst q. cbn. lia.
    - subst q. cbn. lia.
  Qed.

  Lemma step_ok : forall b s log o, sinv b s log -> plain o -> (b = true -> mild s o) ->
    exists s' e, step s o = Some (s', e) /\ sinv b s' (log ++ e).
  Proof.
    intros bb s log o SI PL MI.
    destruct o as [net b e idl|net i|net i|net i m|net i no|net n|net n|]; cbn [FastSyncSpec.step plain mild] in *.
    - destruct (c_req (s_client s)) as [q|] eqn:EQ.
      { exists s, []. split; [reflexivity|]. rewrite app_nil_r. exact SI. }
      unfold fetch_blocks. rewrite EQ. cbv zeta.
      pose proof (begin_ok bb (c_next (s_client s)) ((c_fetch (s_client s) + 1) mod 65536) b e idl PL) as V.
      match type of V with FastSyncInv.inv _ _ ?x => remember x as q0 eqn:E0 end.
      destruct (resched_ok parse net bb q0 V) as (q & E & V' & K & S'); [intros Eb j _; exact (proj1 (MI Eb) j)|].
      rewrite E. eexists _, _. split; [reflexivity|].
      assert (X1 : q_no q = c_next (s_client s)) by (rewrite (k_no _ _ K); subst q0; reflexivity).
      assert (X2 : q_offset q = b) by (rewrite (k_off _ _ K); subst q0; reflexivity).
      assert (X3 : h_end (q_hs q) = e) by (rewrite (k_end _ _ K); subst q0; reflexivity).
      assert (X4 : hd_pending q = None) by (rewrite (keeps_hd _ _ K); subst q0; reflexivity).
      constructor; cbn [s_client s_out c_req c_next].
      + intros q1 E1. injection E1 as <-. rewrite X1, X2, X3, X4. destruct (si_new _ _ _ SI _ (Nat.le_refl _)) as (F1 & O1).
        split; [exact V'|]. split; [exact S'|]. split; [lia|]. split; [intros Eb; exact (proj2 (MI Eb))|]. split; [|exact O1].
        eapply follows_app; [exact F1|]. eapply f_move; [apply m_begin|apply f_nil].
      + intros n LE. destruct (si_new _ _ _ SI n) as (F1 & O1); [lia|]. split; [|exact O1].
        eapply follows_app; [exact F1|]. apply others. constructor; [cbn; lia|constructor].
      + intros n LN NE. specialize (NE q eq_refl). destruct (si_old _ _ _ SI n) as (w & F1 & O1); [lia|congruence|].
        exists w. split; [|exact O1]. eapply follows_app; [exact F1|]. apply others. constructor; [cbn; lia|constructor].
    - apply with_req_ok; [exact SI|]. intros q EQ. destruct (si_req _ _ _ SI q EQ) as (V & S1 & _).
      destruct (on_join_ok parse net bb q i V S1 MI) as (q' & -> & V' & S' & G & P & _). apply c_goes; auto.
      unfold hd_pending. rewrite P. reflexivity.
    - apply with_req_ok; [exact SI|]. intros q EQ. destruct (si_req _ _ _ SI q EQ) as (V & S1 & _).
      destruct (on_leave_ok parse net bb q i V S1 MI) as (q' & -> & V' & S' & G & P & _). apply c_goes; auto.
      unfold hd_pending. rewrite P. reflexivity.
    - apply with_req_ok; [exact SI|]. intros q EQ. destruct (si_req _ _ _ SI q EQ) as (V & S1 & _).
      apply receive_comes; assumption.
    - apply with_req_ok; [exact SI|]. intros q EQ. destruct (si_req _ _ _ SI q EQ) as (V & S1 & _).
      apply timer_comes; assumption.
    - destruct (nth_error (s_out s) n) as [r|] eqn:N.
      2: { exists s, []. split; [reflexivity|]. rewrite app_nil_r. exact SI. }
      cbv zeta. destruct (c_req (s_client s)) as [q|] eqn:EQ.
      + destruct (Nat.eqb_spec (q_no q) (r_of r)) as [NO|NO].
        * apply (answer_ok bb s log n r (EConsumed r) q); auto. intros p h e -> -> -> HD.
          destruct (si_req _ _ _ SI q EQ) as (V & _).
          destruct (consume_ok parse net bb q r V HD MI) as [(-> & _)|(q' & -> & V' & S' & A1 & A2 & A3 & A4 & _)].
          -- left. split; [reflexivity|]. eexists. apply m_consumed. congruence.
          -- right. exists q'. split; [reflexivity|]. split; [exact V'|]. split; [exact S'|]. split; [exact A1|].
             split; [exact A3|]. split; [intros _; exact A4|]. rewrite A2. apply m_consumed. congruence.
        * eexists _, _. split; [reflexivity|]. apply (late_ok bb s log n r); auto. intros q0 E0. rewrite EQ in E0. injection E0 as <-. exact NO.
      + eexists _, _. split; [reflexivity|]. apply (late_ok bb s log n r); auto. intros q0 E0. rewrite EQ in E0. discriminate E0.
    - destruct (nth_error (s_out s) n) as [r|] eqn:N.
      2: { exists s, []. split; [reflexivity|]. rewrite app_nil_r. exact SI. }
      cbv zeta. destruct (c_req (s_client s)) as [q|] eqn:EQ.
      + destruct (Nat.eqb_spec (q_no q) (r_of r)) as [NO|NO].
        * apply (answer_ok bb s log n r (ERejected r) q); auto. intros p h e -> -> -> HD.
          destruct (si_req _ _ _ SI q EQ) as (V & _ & _ & AL & _).
          destruct (reject_ok parse net bb q r V HD) as [(-> & _)|(q' & -> & V' & S' & G & _ & HD' & _)].
          { intros Eb. destruct (MI Eb) as (M1 & M2). split; [exact M1|]. exact (M2 r q eq_refl eq_refl NO). }
          -- left. split; [reflexivity|]. eexists. apply m_rejected. congruence.
          -- right. exists q'. rewrite HD'. split; [reflexivity|]. split; [exact V'|]. split; [exact S'|]. split; [exact (g_no _ _ G)|].
             split; [exact (g_end _ _ G)|]. rewrite (g_off _ _ G), (g_end _ _ G). split; [exact AL|]. apply m_rejected. congruence.
        * eexists _, _. split; [reflexivity|]. apply (late_ok bb s log n r); auto. intros q0 E0. rewrite EQ in E0. injection E0 as <-. exact NO.
      + eexists _, _. split; [reflexivity|]. apply (late_ok bb s log n r); auto. intros q0 E0. rewrite EQ in E0. discriminate E0.
    - destruct (c_req (s_client s)) as [q|] eqn:EQ.
      2: { exists s, []. split; [reflexivity|]. rewrite app_nil_r. exact SI. }
      destruct (si_req _ _ _ SI q EQ) as (V & S1 & LT & AL & FO & OU).
      eexists _, _. split; [reflexivity|]. constructor; cbn [s_client s_out c_req c_next].
      + discriminate.
      + intros n LE. destruct (si_new _ _ _ SI n LE) as (F1 & O1). split; [|exact O1].
        eapply follows_app; [exact F1|]. apply others. constructor; [cbn; lia|constructor].
      + intros n LN _. destruct (Nat.eq_dec (q_no q) n) as [<- |NE].
        * exists (hd_pending q). split; [|exact OU]. eapply follows_app; [exact FO|]. eapply f_move; [apply m_cancel|apply f_nil].
        * destruct (si_old _ _ _ SI n LN) as (w & F1 & O1).
          { intros q0 E0. rewrite EQ in E0. injection E0 as <-. exact NE. }
          exists w. split; [|exact O1]. eapply follows_app; [exact F1|]. apply others. constructor; [exact NE|constructor].
  Qed.

  Lemma start_ok : forall b, sinv b start [].
  Proof.
    intros b. constructor; cbn.
    - discriminate.
    - intros n _. split; [apply f_nil|reflexivity].
    - intros n H. lia.
  Qed.

  Lemma run_ok_from : forall b l s log, sinv b s log -> Forall plain l -> (b = true -> mild_all parse s l) ->
    exists s' e, run s l = Some (s', e) /\ sinv b s' (log ++ e).
  Proof.
    intros b. induction l as [|o l IH]; intros s log SI PL MI; cbn [FastSyncSpec.run].
    - exists s, []. split; [reflexivity|]. rewrite app_nil_r. exact SI.
    - inversion PL as [|x y P1 P2]. subst x y.
      destruct (step_ok b s log o SI P1) as (s1 & e1 & E1 & SI1); [intros Eb; exact (proj1 (MI Eb))|].
      rewrite E1. destruct (IH s1 _ SI1 P2) as (s2 & e2 & E2 & SI2); [intros Eb; exact (proj2 (MI Eb) s1 e1 E1)|].
      rewrite E2. exists s2, (e1 ++ e2). split; [reflexivity|]. rewrite app_assoc. exact SI2.
  Qed.

  Lemma run_ok : forall b l, Forall plain l -> (b = true -> mild_all parse start l) ->
    exists s e, run start l = Some (s, e) /\ sinv b s e.
  Proof. intros b l PL MI. exact (run_ok_from b l start [] (start_ok b) PL MI). Qed.

  Lemma run_app : forall l l' s, run s (l ++ l') =
    match run s l with
    | None => None
    | Some (s1, e1) => match run s1 l' with None => None | Some (s2, e2) => Some (s2, e1 ++ e2) end
    end.
  Proof.
    induction l as [|o l IH]; intros l' s; cbn [app FastSyncSpec.run].
    - destruct (run s l') as [[s2 e2]|]; reflexivity.
    - destruct (step s o) as [[s1 e1]|]; [|reflexivity]. rewrite IH. destruct (run s1 l) as [[s2 e2]|]; [|reflexivity].
      destruct (run s2 l') as [[s3 e3]|]; [|reflexivity]. rewrite app_assoc. reflexivity.
  Qed.

  (** ** What follows *)

  Lemma some_phase : forall b s log n, sinv b s log -> exists p, follows n NotYet log p.
  Proof.
    intros b s log n SI. destruct (Nat.lt_ge_cases n (c_next (s_client s))) as [LT|GE].
    - destruct (c_req (s_client s)) as [q|] eqn:EQ.
      + destruct (Nat.eq_dec (q_no q) n) as [<- |NE].
        * destruct (si_req _ _ _ SI q EQ) as (_ & _ & _ & _ & FO & _). eexists. exact FO.
        * destruct (si_old _ _ _ SI n LT) as (w & F1 & _); [intros q0 E0; rewrite EQ in E0; injection E0 as <-; exact NE|].
          eexists. exact F1.
      + destruct (si_old _ _ _ SI n LT) as (w & F1 & _); [intros q0 E0; rewrite EQ in E0; discriminate E0|]. eexists. exact F1.
    - destruct (si_new _ _ _ SI n GE) as (F1 & _). eexists. exact F1.
  Qed.

  (** What was taken of a request, by its phase. *)
  Lemma taken_of_follows : forall n p l p', follows n p l p' ->
    match p with
    | NotYet => (forall b e, In (EBegin n b e) l -> exists k, taken n l = upwards b k) /\ ((forall b e, ~ In (EBegin n b e) l) -> taken n l = [])
    | Running w h e => (forall r, w = Some r -> r_height r = h) -> exists k, taken n l = upwards h k
    | Over w => taken n l = [] \/ exists r, w = Some r /\ taken n l = [r_height r]
    end
    /\ (p <> NotYet -> forall b e, ~ In (EBegin n b e) l).
  Proof.
    intros n p l p' H. induction H as [p|p ev l p' NE F IH|p ev p1 l p' M F IH].
    - split; [|intros _ b e []]. destruct p; [split; [intros b e []|reflexivity]| |left; reflexivity]. intros _. exists O. reflexivity.
    - assert (T : taken n (ev :: l) = taken n l).
      { unfold taken. cbn [flat_map]. destruct ev as [a b e|r|r|r|a b|a]; try reflexivity. cbn [number] in NE.
        replace (Nat.eqb (r_of r) n) with false; [reflexivity|]. symmetry. apply Nat.eqb_neq. exact NE. }
      assert (B : forall b e, In (EBegin n b e) (ev :: l) -> In (EBegin n b e) l).
      { intros b e [-> |I1]; [contradiction NE; reflexivity|exact I1]. }
      rewrite T. destruct IH as (IH1 & IH2). split.
      + destruct p; [|exact IH1|exact IH1]. destruct IH1 as (A1 & A2). split.
        * intros b e I1. exact (A1 b e (B b e I1)).
        * intros NB. apply A2. intros b e I1. exact (NB b e (or_intror I1)).
      + intros NP b e I1. exact (IH2 NP b e (B b e I1)).
    - destruct IH as (IH1 & IH2). inversion M as [b e|r e RO PA LE|r h e RO|r h e RO|h e err|w h e|r ev' RO EV]; subst.
      + cbn [taken flat_map app]. fold (taken n l). destruct (IH1 (fun r X => ltac:(discriminate X))) as (k & Ek). split; [|intros X; contradiction X; reflexivity]. split.
        * intros b0 e0 [E|I1]; [injection E as <- <-; exists k; exact Ek|]. exfalso. exact (IH2 ltac:(discriminate) b0 e0 I1).
        * intros NB. exfalso. exact (NB b e (or_introl eq_refl)).
      + split.
        * intros _. cbn [taken flat_map app]. apply IH1. intros r0 X. injection X as <-. reflexivity.
        * intros _ b0 e0 [X|I1]; [discriminate X|]. exact (IH2 ltac:(discriminate) b0 e0 I1).
      + split.
        * intros W. specialize (W r eq_refl). destruct (IH1 (fun r X => ltac:(discriminate X))) as (k & Ek).
          exists (S k). cbn [taken flat_map]. rewrite Nat.eqb_refl. fold (taken (r_of r) l). rewrite Ek, W. reflexivity.
        * intros _ b0 e0 [X|I1]; [discriminate X|]. exact (IH2 ltac:(discriminate) b0 e0 I1).
      + split.
        * intros W. cbn [taken flat_map app]. exact (IH1 (fun r X => ltac:(discriminate X))).
        * intros _ b0 e0 [X|I1]; [discriminate X|]. exact (IH2 ltac:(discriminate) b0 e0 I1).
      + split.
        * intros _. exists O. cbn [taken flat_map app]. destruct IH1 as [IH1|(r & X & _)]; [exact IH1|discriminate X].
        * intros _ b0 e0 [X|I1]; [discriminate X|]. exact (IH2 ltac:(discriminate) b0 e0 I1).
      + split.
        * intros W. cbn [taken flat_map app]. destruct IH1 as [IH1|(r & -> & E)]; [exists O; exact IH1|].
          exists 1%nat. fold (taken n l). rewrite E, (W r eq_refl). reflexivity.
        * intros _ b0 e0 [X|I1]; [discriminate X|]. exact (IH2 ltac:(discriminate) b0 e0 I1).
      + split.
        * destruct IH1 as [IH1|(x & X & _)]; [|discriminate X]. destruct EV as [-> | ->]; cbn [taken flat_map app].
          -- rewrite Nat.eqb_refl. right. exists r. split; [reflexivity|]. fold (taken (r_of r) l). rewrite IH1. reflexivity.
          -- left. exact IH1.
        * intros _ b0 e0 [X|I1]; [subst; destruct EV as [EV|EV]; discriminate EV|]. exact (IH2 ltac:(discriminate) b0 e0 I1).
  Qed.

  (** While the request runs with peers and no block is with the caller, some
      peer's request can time out. *)
  Lemma progress : forall s log q, sinv true s log -> c_req (s_client s) = Some q -> q_peers q <> [] ->
    outs (q_no q) (s_out s) = [] -> exists i no, armed q i no.
  Proof.
    intros s log q SI EQ NP NO. destruct (si_req _ _ _ SI q EQ) as (V & S1 & _ & AL & _ & OU).
    specialize (AL eq_refl). rewrite NO in OU.
    assert (HN : hd_pending q = None) by (destruct (hd_pending q); [discriminate OU|reflexivity]).
    assert (A : (0 < sumf bz (q_peers q))%nat).
    { destruct (sumf bz (q_peers q)) as [|z] eqn:Z0; [exfalso|lia].
      assert (NF : forall h, sumf (fh h) (q_peers q) = O).
      { intros h. pose proof (sumf_le _ (fh h) bz (q_peers q)) as L. rewrite Z0 in L.
        assert (X : (sumf (fh h) (q_peers q) <= 0)%nat); [|lia]. apply L. intros x _. unfold fh, bz. destruct (p_f x); [|lia].
        unfold same. destruct (_ =? _); lia. }
      pose proof (i_act _ _ _ V) as AC. rewrite Z0 in AC.
      assert (PO : q_offset q < h_begin (q_hs q) -> ~ In (q_offset q) (additional (q_hs q)) -> False).
      { intros LT NI. pose proof (i_full _ _ _ V eq_refl (q_offset q)) as F1. rewrite room_in in F1; [|lia].
        unfold cnt in F1. rewrite NF in F1.
        assert (A0 : sumf (ah (q_offset q)) (additional (q_hs q)) = O).
        { apply sumf_zero. intros x I1. unfold ah. apply same_0. intros ->. exact (NI I1). }
        rewrite A0 in F1. destruct (sumf_pos _ (ph (q_offset q)) (q_pending q)) as (o & I1 & P1); [lia|].
        destruct o as [r|]; cbn [ph] in P1; [|lia]. unfold same in P1. destruct (r_height r =? q_offset q) eqn:RH; [|lia]. apply Z.eqb_eq in RH.
        apply In_nth_error in I1. destruct I1 as (k & Ek). destruct (i_pend _ _ _ V k r Ek) as (X & _).
        assert (k = O) by lia. subst k. unfold hd_pending in HN. destruct (q_pending q); [discriminate Ek|]. cbn in Ek, HN. congruence. }
      destruct S1 as [S1|[S1|[S1|(l & S1 & S2)]]].
      - lia.
      - destruct (q_peers q); [contradiction NP; reflexivity|]. cbn [length] in S1. lia.
      - destruct (lowest_none _ S1) as (A0 & LT). apply PO; [lia|]. rewrite A0. intros [].
      - destruct (lowest_spec _ _ S1) as [(PM & _ & _ & LE)|(A0 & _ & L1 & _)].
        + assert (IL : In l (additional (q_hs q))) by (exact (Permutation_in l (Permutation_sym PM) (or_introl eq_refl))).
          pose proof (add_in parse true q l V IL). apply PO; [lia|]. intros I1. specialize (LE _ I1). lia.
        + apply PO; [lia|]. rewrite A0. intros []. }
    destruct (sumf_pos _ bz _ A) as (p & I1 & P1). unfold bz in P1. destruct (p_f p) as [f|] eqn:E; [|lia].
    exists (p_id p), (f_no f), p, f. split; [exact I1|]. split; [reflexivity|]. split; [exact E|]. split; [reflexivity|].
    exact (i_timer _ _ _ V eq_refl p f I1 E).
  Qed.

  Lemma all_wanted : forall s log q h, sinv true s log -> c_req (s_client s) = Some q ->
    q_offset q <= h < h_begin (q_hs q) -> wants q h.
  Proof.
    intros s log q h SI EQ H. destruct (si_req _ _ _ SI q EQ) as (V & _).
    pose proof (i_full _ _ _ V eq_refl h) as F1. rewrite room_in in F1; [|exact H]. unfold cnt in F1.
    destruct (sumf (ah h) (additional (q_hs q))) as [|z] eqn:Z1.
    - destruct (sumf (fh h) (q_peers q)) as [|z] eqn:Z2.
      + destruct (sumf_pos _ (ph h) (q_pending q)) as (o & I1 & P1); [lia|]. right. right.
        destruct o as [r|]; cbn [ph] in P1; [|lia]. exists r. split; [exact I1|]. unfold same in P1.
        destruct (Z.eqb_spec (r_height r) h); [assumption|lia].
      + destruct (sumf_pos _ (fh h) (q_peers q)) as (p & I1 & P1); [lia|]. right. left. unfold fh in P1.
        destruct (p_f p) as [f|] eqn:E; [|lia]. exists p, f. split; [exact I1|]. split; [exact E|]. unfold same in P1.
        destruct (Z.eqb_spec (f_height f) h); [assumption|lia].
    - destruct (sumf_pos _ (ah h) (additional (q_hs q))) as (x & I1 & P1); [lia|]. left. unfold ah, same in P1.
      destruct (Z.eqb_spec x h); [subst; exact I1|lia].
  Qed.
End Sys.
