(** What a request keeps: no height is in two places, and none is lost unless
    something failed. *)
From Coq Require Import ZArith List Bool Arith Lia Permutation.
From Verif Require Import Model.Bytes Model.FastSync Spec.FastSyncSpec Proof.FastSyncFacts.
Import ListNotations.
Open Scope Z_scope.

Definition same (a b : Z) : nat := if a =? b then 1%nat else O.
Definition fh (h : Z) (p : peer) : nat := match p_f p with Some f => same (f_height f) h | None => O end.
Definition bz (p : peer) : nat := match p_f p with Some _ => 1%nat | None => O end.
Definition ph (h : Z) (o : option result) : nat := match o with Some r => same (r_height r) h | None => O end.
Definition ah (h x : Z) : nat := same x h.

Definition cnt (q : request) (h : Z) : nat :=
  (sumf (fh h) (q_peers q) + sumf (ah h) (additional (q_hs q)) + sumf (ph h) (q_pending q))%nat.
Definition room (q : request) (h : Z) : nat :=
  if (q_offset q <=? h) && (h <? h_begin (q_hs q)) then 1%nat else O.

Section Inv.
  Variable parse : bytes -> option Z.

  (** [b]: nothing failed. *)
  Record inv (b : bool) (q : request) : Prop := {
    i_act : q_active q = Z.of_nat (sumf bz (q_peers q));
    i_ids : NoDup (map p_id (q_peers q));
    i_len : length (q_pending q) = 10%nat;
    i_pend : forall k r, nth_error (q_pending q) k = Some (Some r) ->
      r_height r = q_offset q + Z.of_nat k /\ r_of r = q_no q /\ parse (r_data r) = Some (r_height r);
    i_cnt : forall h, (cnt q h <= room q h)%nat;
    i_full : b = true -> forall h, cnt q h = room q h;
    i_timer : b = true -> forall p f, In p (q_peers q) -> p_f p = Some f -> f_timer f <> None;
    i_win : forall p f, In p (q_peers q) -> p_f p = Some f -> f_height f < q_offset q + 10;
    i_low : q_offset q <= h_begin (q_hs q);
    i_top : h_begin (q_hs q) <= h_end (q_hs q) + 1 \/ h_begin (q_hs q) <= q_offset q
  }.

  Definition sat (q : request) : Prop :=
    3 <= q_active q \/ Z.of_nat (length (q_peers q)) = q_active q \/ get_lowest (q_hs q) = None
    \/ exists l, get_lowest (q_hs q) = Some l /\ q_offset q + 10 <= l.

  Record keeps (q q' : request) : Prop := {
    k_no : q_no q' = q_no q;
    k_fetch : q_fetch q' = q_fetch q;
    k_off : q_offset q' = q_offset q;
    k_pend : q_pending q' = q_pending q;
    k_end : h_end (q_hs q') = h_end (q_hs q);
    k_ids : map p_id (q_peers q') = map p_id (q_peers q);
    k_begin : h_begin (q_hs q) <= h_begin (q_hs q')
  }.

  Lemma keeps_refl : forall q, keeps q q.
  Proof. intros q. constructor; auto; lia. Qed.

  Lemma keeps_trans : forall a b c, keeps a b -> keeps b c -> keeps a c.
  Proof. intros a b c [] []. constructor; try congruence. lia. Qed.

  Lemma same_eq : forall a, same a a = 1%nat.
  Proof. intros a. unfold same. rewrite Z.eqb_refl. reflexivity. Qed.

  Lemma same_0 : forall a b, a <> b -> same a b = O.
  Proof. intros a b H. unfold same. destruct (a =? b) eqn:E; [apply Z.eqb_eq in E; contradiction|reflexivity]. Qed.

  Lemma room_le1 : forall q h, (room q h <= 1)%nat.
  Proof. intros q h. unfold room. destruct (_ && _); lia. Qed.

  Lemma room_pos : forall q h, (0 < room q h)%nat -> q_offset q <= h < h_begin (q_hs q).
  Proof.
    intros q h. unfold room. destruct ((q_offset q <=? h) && (h <? h_begin (q_hs q))) eqn:E; [|lia].
    apply andb_true_iff in E. destruct E as [A B]. apply Z.leb_le in A. apply Z.ltb_lt in B. lia.
  Qed.

  Lemma room_in : forall q h, q_offset q <= h < h_begin (q_hs q) -> room q h = 1%nat.
  Proof.
    intros q h [A B]. unfold room. apply Z.leb_le in A. apply Z.ltb_lt in B. rewrite A, B. reflexivity.
  Qed.

  Lemma fetching_in : forall b q p f, inv b q -> In p (q_peers q) -> p_f p = Some f ->
    q_offset q <= f_height f < h_begin (q_hs q).
  Proof.
    intros b q p f V I E. apply room_pos. pose proof (i_cnt _ _ V (f_height f)) as C. unfold cnt in C.
    pose proof (sumf_in _ (fh (f_height f)) p (q_peers q) I) as S1. unfold fh at 1 in S1. rewrite E, same_eq in S1. lia.
  Qed.

  Lemma pending_in : forall b q r, inv b q -> In (Some r) (q_pending q) -> q_offset q <= r_height r < h_begin (q_hs q).
  Proof.
    intros b q r V I. apply room_pos. pose proof (i_cnt _ _ V (r_height r)) as C. unfold cnt in C.
    pose proof (sumf_in _ (ph (r_height r)) (Some r) (q_pending q) I) as S1. unfold ph at 1 in S1. rewrite same_eq in S1. lia.
  Qed.

  Lemma add_in : forall b q x, inv b q -> In x (additional (q_hs q)) -> q_offset q <= x < h_begin (q_hs q).
  Proof.
    intros b q x V I. apply room_pos. pose proof (i_cnt _ _ V x) as C. unfold cnt in C.
    pose proof (sumf_in _ (ah x) x (additional (q_hs q)) I) as S1. unfold ah at 1 in S1. rewrite same_eq in S1. lia.
  Qed.

  Lemma bz_le : forall l, (sumf bz l <= length l)%nat.
  Proof. intros l. apply sumf_all_one. intros x _. unfold bz. destruct (p_f x); lia. Qed.

  Lemma all_busy : forall l, (forall p, In p l -> p_f p <> None) -> sumf bz l = length l.
  Proof.
    induction l as [|p l IH]; intros H; [reflexivity|]. rewrite sumf_cons, IH; [|intros x I; exact (H x (or_intror I))].
    specialize (H p (or_introl eq_refl)). unfold bz. destruct (p_f p); [reflexivity|contradiction].
  Qed.

  Lemma reschedule_ok : forall k net b q, inv b q ->
    (b = true -> forall i, In i (map p_id (q_peers q)) -> net i <> Failed) ->
    exists q', reschedule k net q = Some q' /\ inv b q' /\ keeps q q' /\ (4 <= q_active q + Z.of_nat k -> sat q').
  Proof.
    induction k as [|k IH]; intros net b q V NF; cbn [reschedule].
    - exists q. split; [reflexivity|]. split; [exact V|]. split; [apply keeps_refl|]. intros H. left. lia.
    - destruct (3 <=? q_active q) eqn:E3.
      { apply Z.leb_le in E3. exists q. split; [reflexivity|]. split; [exact V|]. split; [apply keeps_refl|]. intros _. left. exact E3. }
      destruct (Z.of_nat (length (q_peers q)) =? q_active q) eqn:EP.
      { apply Z.eqb_eq in EP. exists q. split; [reflexivity|]. split; [exact V|]. split; [apply keeps_refl|]. intros _. right. left. exact EP. }
      destruct (get_lowest (q_hs q)) as [l|] eqn:EL.
      2: { exists q. split; [reflexivity|]. split; [exact V|]. split; [apply keeps_refl|]. intros _. right. right. left. exact EL. }
      rewrite (i_len _ _ V). change (Z.of_nat 10) with 10.
      destruct (q_offset q + 10 <=? l) eqn:EW.
      { apply Z.leb_le in EW. exists q. split; [reflexivity|]. split; [exact V|]. split; [apply keeps_refl|]. intros _. right. right. right.
        exists l. split; [exact EL|exact EW]. }
      apply Z.leb_gt in EW. apply Z.eqb_neq in EP.
      remember (fun p : peer => new_fetcher (net (p_id p)) (q_fresh q) l (q_fetch q * 65536 + p_req p)) as g eqn:Eg.
      destruct (give g (q_peers q)) as [ps|] eqn:EG.
      2: { exfalso. apply EP. rewrite (i_act _ _ V). f_equal. symmetry. apply all_busy. exact (give_none _ _ EG). }
      destruct (give_spec _ _ _ EG) as (a & p & r & EA & EN & ->).
      assert (GH : f_height (g p) = l). { subst g. unfold new_fetcher. destruct (net (p_id p)); reflexivity. }
      assert (GT : b = true -> f_timer (g p) <> None).
      { intros Eb. assert (N : net (p_id p) <> Failed).
        { apply (NF Eb). rewrite EA, map_app. apply in_or_app. right. left. reflexivity. }
        subst g. unfold new_fetcher. destruct (net (p_id p)); [discriminate|discriminate|contradiction]. }
      remember (mkPeer (p_id p) ((p_req p + 1) mod 65536) (Some (g p))) as p' eqn:Ep'.
      assert (EF : p_f p' = Some (g p)) by (subst p'; reflexivity).
      assert (EI : p_id p' = p_id p) by (subst p'; reflexivity).
      clear Ep' Eg EG.
      remember (mkReq (q_no q) (q_fetch q) (pop_lowest (q_hs q)) (a ++ p' :: r) (q_active q + 1) (q_offset q) (q_pending q) (S (q_fresh q))) as q1 eqn:E1.
      assert (KP : keeps q q1 /\ inv b q1).
      { pose proof (lowest_spec _ _ EL) as LS.
        assert (IDS : map p_id (a ++ p' :: r) = map p_id (q_peers q)).
        { rewrite EA, !map_app. cbn [map]. rewrite EI. reflexivity. }
        assert (HE : h_end (pop_lowest (q_hs q)) = h_end (q_hs q)).
        { destruct LS as [(_ & _ & H & _)|(_ & _ & _ & _ & _ & H)]; exact H. }
        assert (HB : h_begin (q_hs q) <= h_begin (pop_lowest (q_hs q))).
        { destruct LS as [(_ & H & _)|(_ & _ & _ & _ & H & _)]; rewrite H; lia. }
        assert (SF : forall h, sumf (fh h) (a ++ p' :: r) = (sumf (fh h) (q_peers q) + same l h)%nat).
        { intros h. rewrite EA, !sumf_app, !sumf_cons. unfold fh at 2 5. rewrite EF, EN, GH. lia. }
        split.
        - subst q1. constructor; cbn; auto.
        - assert (IN : forall x f, In x (a ++ p' :: r) -> p_f x = Some f -> (x = p' /\ f = g p) \/ In x (q_peers q)).
          { intros x f I E. apply in_app_iff in I. rewrite EA. destruct I as [I|[<- |I]].
            - right. apply in_or_app. left. exact I.
            - left. split; [reflexivity|]. rewrite EF in E. injection E as <-. reflexivity.
            - right. apply in_or_app. right. right. exact I. }
          assert (CR : forall h, exists d, cnt q1 h = (cnt q h + d)%nat /\ room q1 h = (room q h + d)%nat).
          { intros h. subst q1. unfold cnt, room. cbn [q_peers q_hs q_pending q_offset]. rewrite SF.
            destruct LS as [(PM & HB' & _)|(A0 & A1 & HL & _ & HB' & _)].
            - exists O. rewrite HB', (sumf_perm _ (ah h) _ _ PM), sumf_cons. unfold ah at 2. lia.
            - exists (same l h). rewrite A0, A1, HB'. cbn [sumf fold_right].
              split; [lia|]. pose proof (i_low _ _ V) as LO. unfold same. rewrite HL.
              destruct (Z.eqb_spec (h_begin (q_hs q)) h), (Z.leb_spec (q_offset q) h), (Z.ltb_spec h (h_begin (q_hs q))),
                (Z.ltb_spec h (h_begin (q_hs q) + 1)); cbn [andb]; lia. }
          constructor.
          + subst q1. cbn [q_active q_peers]. rewrite (i_act _ _ V), EA, !sumf_app, !sumf_cons. unfold bz at 2 5. rewrite EF, EN. lia.
          + subst q1. cbn [q_peers]. rewrite IDS. exact (i_ids _ _ V).
          + subst q1. exact (i_len _ _ V).
          + subst q1. exact (i_pend _ _ V).
          + intros h. destruct (CR h) as (d & -> & ->). pose proof (i_cnt _ _ V h). lia.
          + intros Eb h. destruct (CR h) as (d & -> & ->). rewrite (i_full _ _ V Eb h). reflexivity.
          + intros Eb x f I E. subst q1. cbn [q_peers] in I. destruct (IN x f I E) as [[-> ->]|I']; [exact (GT Eb)|exact (i_timer _ _ V Eb x f I' E)].
          + intros x f I E. subst q1. cbn [q_peers q_offset] in *. destruct (IN x f I E) as [[-> ->]|I']; [rewrite GH; exact EW|exact (i_win _ _ V x f I' E)].
          + subst q1. cbn [q_offset q_hs]. pose proof (i_low _ _ V). lia.
          + subst q1. cbn [q_offset q_hs]. rewrite HE. destruct LS as [(_ & H & _)|(_ & _ & H1 & H2 & H3 & _)].
            * rewrite H. exact (i_top _ _ V).
            * left. lia. }
      destruct KP as (K1 & V1). destruct (IH net b q1 V1) as (q' & E' & V' & K' & S').
      { intros Eb i I. apply (NF Eb). rewrite <- (k_ids _ _ K1). exact I. }
      exists q'. split; [exact E'|]. split; [exact V'|]. split; [exact (keeps_trans _ _ _ K1 K')|].
      intros H. apply S'. subst q1. cbn [q_active]. lia.
  Qed.

  Lemma resched_ok : forall net b q, inv b q ->
    (b = true -> forall i, In i (map p_id (q_peers q)) -> net i <> Failed) ->
    exists q', resched net q = Some q' /\ inv b q' /\ keeps q q' /\ sat q'.
  Proof.
    intros net b q V NF. destruct (reschedule_ok 4 net b q V NF) as (q' & E & V' & K & S1).
    exists q'. split; [exact E|]. split; [exact V'|]. split; [exact K|]. apply S1.
    rewrite (i_act _ _ V). lia.
  Qed.
End Inv.
