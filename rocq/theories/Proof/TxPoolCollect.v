(** Candidate. *)
From Coq Require Import ZArith List Bool Arith Lia.
From Verif Require Import Model.Bytes Model.TxPool Spec.TxPoolSpec Proof.TxPoolFacts Proof.TxPoolInv Proof.TxPoolAdd
  Proof.TxPoolOps.
Import ListNotations.
Open Scope Z_scope.

Section Collect.
  Context {world : Type}.
  Variables (lo hi : Z) (recent : bytes -> Z -> option bool) (pre : world -> tx -> world * option bool).

  Local Notation reason_step := (TxPoolSpec.reason_step lo recent pre).
  Local Notation faulty := (TxPoolSpec.faulty lo recent pre).
  Local Notation skipped := (TxPoolSpec.skipped lo hi recent pre).
  Local Notation due := (TxPoolSpec.due lo hi recent).

  Record collected (l : list addr) (s : pool_list) (mb mc : Z) (w : world) (size count : Z)
      (c : list addr) (n : Z) (d : list addr) (s' : pool_list) : Prop := mkCollected {
    q_state : exists e, s' = with_err s e;
    q_size : n = size + sum_sizes (map (txs s) c);
    q_max : size <= mb -> n <= mb;
    q_count : count <= mc -> count + Z.of_nat (length c) <= mc;
    q_fit : forall a, In a c -> lo < t_time (txs s a) <= hi /\ recent (t_id (txs s a)) (t_time (txs s a)) = Some false;
    q_d : forall a, In a d -> In a l /\ err s' a <> None /\ faulty (entry_at s a);
    q_outside : forall a, ~ In a l -> err s' a = err s a;
    q_inside : forall a, In a l -> reason_step (entry_at s a) (err s' a);
    q_pass : (forall w t w' b, pre w t = (w', Some b) -> w' = w) -> all_pass pre w (map (txs s) c);
    q_within : within c l;
    q_within_d : within d l;
    q_stop : exists l1 l2, l = l1 ++ l2 /\ within c l1
      /\ (forall a, In a l1 -> In a c \/ skipped (entry_at s a))
      /\ (forall a, In a l1 -> due (entry_at s a) -> In a d)
      /\ (forall a, In a c -> ~ In a d)
      /\ (l2 = [] \/ mb <= n \/ mc <= count + Z.of_nat (length c)
          \/ exists a r, l2 = a :: r /\ ~ due (entry_at s a) /\ mb < n + t_size (txs s a))
  }.

  Lemma with_err_err s e : err (with_err s e) = e.
  Proof. reflexivity. Qed.
  Lemma with_err_twice s e e' : with_err (with_err s e) e' = with_err s e'.
  Proof. reflexivity. Qed.

  Lemma reason_step_err s e0 a r : e_why (entry_at (with_err s e0) a) = e_why (entry_at s a) ->
    reason_step (entry_at (with_err s e0) a) r -> reason_step (entry_at s a) r.
  Proof. unfold TxPoolSpec.reason_step, time_of, processed, id_of, time_of. intros ->. cbn [entry_at e_tx with_err txs]. tauto. Qed.

  (** Leaving one out. *)
  Lemma collected_skip a l s mb mc w w1 size count c n d s1 s' (dropped : bool) :
    ~ In a l ->
    collected l s1 mb mc w1 size count c n d s' ->
    ((forall w t w' b, pre w t = (w', Some b) -> w' = w) -> w1 = w) ->
    (exists e, s1 = with_err s e /\ (forall x, x <> a -> e x = err s x) /\ reason_step (entry_at s a) (e a)) ->
    (dropped = true -> err s1 a <> None /\ faulty (entry_at s a)) ->
    skipped (entry_at s a) -> (due (entry_at s a) -> dropped = true) ->
    collected (a :: l) s mb mc w size count c n (if dropped then a :: d else d) s'.
  Proof.
    intros Hna [Q1 Q2 Q3 Q4 Q5 Q6 Q7 Q8 Q9 Q10 Q11 Q12] Hw (e0 & -> & He & Hr) Hd Hs Hdue.
    assert (Hin : forall x, In x l -> x <> a) by (intros x Hx ->; contradiction).
    assert (Een : forall x, In x l -> entry_at (with_err s e0) x = entry_at s x).
    { intros x Hx. unfold entry_at. cbn [with_err txs direct err]. now rewrite He by now apply Hin. }
    constructor.
    - destruct Q1 as (e & ->). exists e. reflexivity.
    - exact Q2.
    - exact Q3.
    - exact Q4.
    - exact Q5.
    - intros x Hx. destruct dropped.
      + destruct Hx as [<-|Hx].
        * split; [now left|]. rewrite (Q7 a Hna). now apply Hd.
        * destruct (Q6 x Hx) as (H1 & H2 & H3). split; [now right|]. rewrite Een in H3 by exact H1. tauto.
      + destruct (Q6 x Hx) as (H1 & H2 & H3). split; [now right|]. rewrite Een in H3 by exact H1. tauto.
    - intros x Hx. rewrite Q7 by (intros H; apply Hx; now right). cbn [with_err err]. apply He.
      intros ->. apply Hx. now left.
    - intros x [<-|Hx].
      + rewrite (Q7 a Hna). exact Hr.
      + rewrite <- Een by exact Hx. now apply Q8.
    - intros Hp. rewrite <- (Hw Hp). now apply Q9.
    - now apply within_skip.
    - destruct dropped; [now apply within_take | now apply within_skip].
    - destruct Q12 as (l1 & l2 & -> & W & S1 & S2 & S3 & St). exists (a :: l1), l2.
      split; [reflexivity|]. split; [now apply within_skip|].
      assert (Hin1 : forall x, In x l1 -> In x (l1 ++ l2)) by (intros; apply in_or_app; now left).
      split. { intros x [<-|Hx]; [right; exact Hs|]. destruct (S1 x Hx) as [?|H]; [now left|].
               right. rewrite Een in H by now apply Hin1. exact H. }
      split. { intros x [<-|Hx] Hdx; [rewrite (Hdue Hdx); now left|].
               rewrite <- Een in Hdx by now apply Hin1. assert (H := S2 x Hx Hdx). destruct dropped; [now right | exact H]. }
      split. { intros x Hx. destruct dropped; [|now apply S3].
               intros [<-|H]; [|exact (S3 x Hx H)]. apply Hna. 
               clear - Q10 Hx. induction Q10; cbn in *; [destruct Hx | destruct Hx; tauto | tauto]. }
      destruct St as [?|[?|[?|(b & r & -> & H1 & H2)]]]; [now left | tauto | tauto |].
      right. right. right. exists b, r. split; [reflexivity|].
      rewrite <- (Een b) by (apply in_or_app; right; now left). tauto.
  Qed.

  Lemma collected_none l s mb mc w size count : (mb <= size \/ mc <= count \/ l = []
      \/ exists a r, l = a :: r /\ ~ due (entry_at s a) /\ mb < size + t_size (txs s a)) ->
    collected l s mb mc w size count [] size [] s.
  Proof.
    intros H. constructor; cbn [map length sum_sizes fold_right]; try lia.
    - exists (err s). destruct s; reflexivity.
    - intros a [].
    - intros a [].
    - reflexivity.
    - intros a _. now left.
    - intros _. exact Logic.I.
    - constructor.
    - constructor.
    - exists [], l. split; [reflexivity|]. split; [constructor|]. split; [intros a []|]. split; [intros a []|].
      split; [intros a []|]. replace (count + Z.of_nat 0) with count by lia. tauto.
  Qed.

  Lemma collect_ok : forall l s mb mc w size count c n d s' m, NoDup l ->
    collect lo hi recent pre l s mb mc w size count = (c, n, d, s', m) ->
    collected l s mb mc w size count c n d s'.
  Proof.
    induction l as [|a l IH]; intros s mb mc w size count c n d s' m ND H.
    - cbn [collect] in H. injection H as <- <- <- <- <-. apply collected_none. tauto.
    - cbn [collect] in H. inversion ND as [|? ? Hna ND' E0]. subst.
      destruct (Z.ltb_spec size mb) as [Hmb|Hmb]; cbn [andb] in H.
      2:{ injection H as <- <- <- <- <-. apply collected_none. tauto. }
      destruct (Z.ltb_spec count mc) as [Hmc|Hmc].
      2:{ injection H as <- <- <- <- <-. apply collected_none. tauto. }
      assert (Hsame : forall r, exists e, with_err s (upd (err s) a r) = with_err s e
                /\ (forall x, x <> a -> e x = err s x) /\ e a = r).
      { intros r. exists (upd (err s) a r). split; [reflexivity|]. split; [intros x Hx; now apply upd_other|]. apply upd_same. }
      assert (Hid : exists e, s = with_err s e /\ (forall x, x <> a -> e x = err s x) /\ e a = err s a).
      { exists (err s). split; [destruct s; reflexivity|]. tauto. }
      destruct (Z.leb_spec (t_time (txs s a)) lo) as [Hlo|Hlo].
      { (* expired *)
        match type of H with context [collect lo hi recent pre l ?u mb mc w size count] =>
          destruct (collect lo hi recent pre l u mb mc w size count) as [[[[c0 n0] d0] s0] m0] eqn:Ec; set (s1 := u) in * end.
        injection H as <- <- <- <- <-.
        apply (collected_skip a l s mb mc w w size count c0 n0 d0 s1 s0 true Hna (IH _ _ _ _ _ _ _ _ _ _ _ ND' Ec)).
        - intros _. reflexivity.
        - unfold s1. destruct (err s a) as [r|] eqn:Er.
          + destruct Hid as (e & E1 & E2 & E3). exists e. split; [exact E1|]. split; [exact E2|]. left. cbn. congruence.
          + destruct (Hsame (Some Expired)) as (e & E1 & E2 & E3). exists e. split; [exact E1|]. split; [exact E2|].
            right. left. cbn. tauto.
        - intros _. split; [|left; exact Hlo]. unfold s1. destruct (err s a) as [r|] eqn:Er; [congruence|].
          cbn. rewrite upd_same. discriminate.
        - left. exact Hlo.
        - reflexivity. }
      destruct (Z.ltb_spec hi (t_time (txs s a))) as [Hhi|Hhi].
      { (* too early for it *)
        apply (collected_skip a l s mb mc w w size count c n d s s' false Hna (IH _ _ _ _ _ _ _ _ _ _ _ ND' H)).
        - intros _. reflexivity.
        - destruct Hid as (e & E1 & E2 & E3). exists e. split; [exact E1|]. split; [exact E2|]. left. exact E3.
        - discriminate.
        - right. left. exact Hhi.
        - unfold TxPoolSpec.due, time_of. cbn [entry_at e_tx]. intros [?|[? _]]; lia. }
      destruct (recent (t_id (txs s a)) (t_time (txs s a))) as [[|]|] eqn:Erec.
      { (* processed *)
        match type of H with context [collect lo hi recent pre l ?u mb mc w size count] =>
          destruct (collect lo hi recent pre l u mb mc w size count) as [[[[c0 n0] d0] s0] m0] eqn:Ec; set (s1 := u) in * end.
        injection H as <- <- <- <- <-.
        apply (collected_skip a l s mb mc w w size count c0 n0 d0 s1 s0 true Hna (IH _ _ _ _ _ _ _ _ _ _ _ ND' Ec)).
        - intros _. reflexivity.
        - destruct (Hsame (Some Processed)) as (e & E1 & E2 & E3). exists e. split; [exact E1|]. split; [exact E2|].
          right. right. left. split; [exact E3 | exact Erec].
        - intros _. split; [cbn; rewrite upd_same; discriminate|]. right. left. exact Erec.
        - right. right. left. unfold id_of, time_of. cbn [entry_at e_tx]. congruence.
        - reflexivity. }
      2:{ (* unknown *)
        apply (collected_skip a l s mb mc w w size count c n d s s' false Hna (IH _ _ _ _ _ _ _ _ _ _ _ ND' H)).
        - intros _. reflexivity.
        - destruct Hid as (e & E1 & E2 & E3). exists e. split; [exact E1|]. split; [exact E2|]. left. exact E3.
        - discriminate.
        - right. right. left. unfold id_of, time_of. cbn [entry_at e_tx]. congruence.
        - unfold TxPoolSpec.due, time_of, id_of, time_of. cbn [entry_at e_tx]. intros [?|[_ ?]]; [lia | congruence]. }
      assert (Hnd : ~ due (entry_at s a)).
      { unfold TxPoolSpec.due, time_of, id_of, time_of. cbn [entry_at e_tx]. intros [?|[_ ?]]; [lia | congruence]. }
      destruct (pre w (txs s a)) as [w1 [bal|]] eqn:Ep.
      { (* refused *)
        set (s1 := match err s a with None => with_err s (upd (err s) a (Some (Refused bal))) | Some _ => s end) in *.
        assert (Hst : exists e, s1 = with_err s e /\ (forall x, x <> a -> e x = err s x) /\ reason_step (entry_at s a) (e a)).
        { unfold s1. destruct (err s a) as [r|] eqn:Er.
          + destruct Hid as (e & E1 & E2 & E3). exists e. split; [exact E1|]. split; [exact E2|]. left. cbn. congruence.
          + destruct (Hsame (Some (Refused bal))) as (e & E1 & E2 & E3). exists e. split; [exact E1|]. split; [exact E2|].
            right. right. right. split; [exact Er|]. exists w, w1, bal. split; [exact Ep | exact E3]. }
        destruct (negb bal || negb (direct s a)) eqn:Eb.
        - destruct (collect lo hi recent pre l s1 mb mc w1 size count) as [[[[c0 n0] d0] s0] m0] eqn:Ec.
          injection H as <- <- <- <- <-.
          apply (collected_skip a l s mb mc w w1 size count c0 n0 d0 s1 s0 true Hna (IH _ _ _ _ _ _ _ _ _ _ _ ND' Ec)).
          + intros Hp. exact (Hp _ _ _ _ Ep).
          + exact Hst.
          + intros _. split.
            * unfold s1. destruct (err s a) as [r|] eqn:Er; [congruence|]. cbn. rewrite upd_same. discriminate.
            * right. right. exists w, w1, bal. split; [exact Ep|]. cbn.
              apply orb_true_iff in Eb. destruct Eb as [Eb|Eb]; apply negb_true_iff in Eb; tauto.
          + right. right. right. exists w, w1, bal. exact Ep.
          + reflexivity.
        - apply (collected_skip a l s mb mc w w1 size count c n d s1 s' false Hna (IH _ _ _ _ _ _ _ _ _ _ _ ND' H)).
          + intros Hp. exact (Hp _ _ _ _ Ep).
          + exact Hst.
          + discriminate.
          + right. right. right. exists w, w1, bal. exact Ep.
          + intros Hx. contradiction. }
      destruct (Z.ltb_spec mb (size + t_size (txs s a))) as [Hbig|Hbig].
      { injection H as <- <- <- <- <-. apply collected_none. right. right. right. exists a, l. tauto. }
      destruct (collect lo hi recent pre l s mb mc w1 (size + t_size (txs s a)) (count + 1)) as [[[[c0 n0] d0] s0] m0] eqn:Ec.
      injection H as <- <- <- <- <-.
      destruct (IH _ _ _ _ _ _ _ _ _ _ _ ND' Ec) as [Q1 Q2 Q3 Q4 Q5 Q6 Q7 Q8 Q9 Q10 Q11 Q12].
      constructor.
      + exact Q1.
      + cbn [map sum_sizes fold_right]. rewrite Q2. unfold sum_sizes. lia.
      + intros _. apply Q3. exact Hbig.
      + intros _. cbn [length]. specialize (Q4 ltac:(lia)). lia.
      + intros x [<-|Hx]; [split; [lia | exact Erec] | now apply Q5].
      + intros x Hx. destruct (Q6 x Hx) as (H1 & H2). split; [now right | exact H2].
      + intros x Hx. apply Q7. intros Hi. apply Hx. now right.
      + intros x [<-|Hx]; [left; rewrite Q7 by exact Hna; reflexivity | now apply Q8].
      + intros Hp. cbn [map all_pass]. rewrite Ep. cbn [fst snd]. split; [reflexivity|]. now apply Q9.
      + now apply within_take.
      + now apply within_skip.
      + destruct Q12 as (l1 & l2 & -> & W & S1 & S2 & S3 & St). exists (a :: l1), l2.
        split; [reflexivity|]. split; [now apply within_take|].
        split. { intros x [<-|Hx]; [left; now left|]. destruct (S1 x Hx) as [?|Hq]; [left; now right | now right]. }
        split. { intros x [<-|Hx] Hdx; [contradiction | now apply S2]. }
        split. { intros x [<-|Hx]; [|now apply S3]. intros Hd. destruct (Q6 a Hd) as [Hi _]. contradiction. }
        cbn [length]. destruct St as [?|[?|[?|?]]]; [now left | tauto | right; right; left; lia | tauto].
  Qed.
End Collect.
