(** The steps of a request keep what it keeps. *)
From Coq Require Import ZArith List Bool Arith Lia Permutation.
From Verif Require Import Model.Bytes Model.FastSync Spec.FastSyncSpec Proof.FastSyncFacts Proof.FastSyncInv.
Import ListNotations.
Open Scope Z_scope.

Definition ids (q : request) : list peer_id := map p_id (q_peers q).

Section Ops.
  Variable parse : bytes -> option Z.
  Local Notation inv := (inv parse).

  Definition fine (b : bool) (net : peer_id -> outcome) (q : request) : Prop :=
    b = true -> forall i, In i (ids q) -> net i <> Failed.

  Lemma hs_add_ok : forall hs h, h < h_begin hs -> hs_add hs h = Some (mkHeights (h_begin hs) (h_end hs) (additional hs ++ [h])).
  Proof. intros hs h H. unfold hs_add. replace (h_begin hs <=? h) with false; [reflexivity|]. symmetry. apply Z.leb_gt. exact H. Qed.

  Lemma removed_in : forall k l p x, nth_error l k = Some p -> In x (remove_peer k l) -> In x l.
  Proof. intros k l p x H I. apply (Permutation_in x (Permutation_sym (remove_perm _ _ _ H))). right. exact I. Qed.

  Lemma removed_ids : forall k l p, nth_error l k = Some p -> NoDup (map p_id l) ->
    NoDup (map p_id (remove_peer k l)) /\ ~ In (p_id p) (map p_id (remove_peer k l)).
  Proof.
    intros k l p H N. pose proof (Permutation_map p_id (remove_perm _ _ _ H)) as P. cbn [map] in P.
    pose proof (Permutation_NoDup P N) as N'. inversion N' as [|x y A B]. split; assumption.
  Qed.

  Lemma removed_map : forall k l p i, nth_error l k = Some p -> In i (map p_id (remove_peer k l)) -> In i (map p_id l).
  Proof.
    intros k l p i H I. apply in_map_iff in I. destruct I as (x & <- & I). apply in_map. exact (removed_in _ _ _ _ H I).
  Qed.

  (** An idle peer goes. *)
  Lemma drop_idle : forall b q k p, inv b q -> nth_error (q_peers q) k = Some p -> p_f p = None ->
    inv b (with_peers q (remove_peer k (q_peers q)) (q_active q)).
  Proof.
    intros b q k p V H E. pose proof (remove_perm _ _ _ H) as P.
    assert (C : forall h, cnt (with_peers q (remove_peer k (q_peers q)) (q_active q)) h = cnt q h).
    { intros h. unfold cnt. cbn. rewrite (sumf_perm _ (fh h) _ _ P), sumf_cons. unfold fh at 2. rewrite E. reflexivity. }
    constructor.
    - cbn [with_hs with_peers q_active q_peers]. rewrite (i_act _ _ _ V), (sumf_perm _ bz _ _ P), sumf_cons. unfold bz at 1. rewrite E. reflexivity.
    - exact (proj1 (removed_ids _ _ _ H (i_ids _ _ _ V))).
    - exact (i_len _ _ _ V).
    - exact (i_pend _ _ _ V).
    - intros h. rewrite C. exact (i_cnt _ _ _ V h).
    - intros Eb h. rewrite C. exact (i_full _ _ _ V Eb h).
    - intros Eb x f I1. exact (i_timer _ _ _ V Eb x f (removed_in _ _ _ _ H I1)).
    - intros x f I1. exact (i_win _ _ _ V x f (removed_in _ _ _ _ H I1)).
    - exact (i_low _ _ _ V).
    - exact (i_top _ _ _ V).
  Qed.

  Lemma drop_idle_sat : forall b q k p, inv b q -> sat q -> nth_error (q_peers q) k = Some p -> p_f p = None ->
    sat (with_peers q (remove_peer k (q_peers q)) (q_active q)).
  Proof.
    intros b q k p V S1 H E. pose proof (remove_perm _ _ _ H) as P.
    destruct S1 as [S1|[S1|[S1|S1]]]; [left; exact S1| |right; right; left; exact S1|right; right; right; exact S1].
    exfalso. rewrite (i_act _ _ _ V), (sumf_perm _ bz _ _ P), sumf_cons, (Permutation_length P) in S1. cbn [length] in S1.
    unfold bz at 1 in S1. rewrite E in S1. pose proof (bz_le (remove_peer k (q_peers q))). lia.
  Qed.

  (** A busy one goes; its height is given back, or lost. *)
  Lemma drop_busy : forall b q k p f, inv b q -> nth_error (q_peers q) k = Some p -> p_f p = Some f ->
    inv b (with_hs (with_peers q (remove_peer k (q_peers q)) (q_active q - 1))
             (mkHeights (h_begin (q_hs q)) (h_end (q_hs q)) (additional (q_hs q) ++ [f_height f]))).
  Proof.
    intros b q k p f V H E. pose proof (remove_perm _ _ _ H) as P.
    match goal with |- FastSyncInv.inv _ _ ?x => remember x as q1 eqn:Eq1 end.
    assert (C : forall h, cnt q1 h = cnt q h).
    { intros h. subst q1. unfold cnt. cbn [with_hs with_peers q_peers q_hs q_pending additional].
      rewrite (sumf_perm _ (fh h) (q_peers q) _ P), sumf_cons, sumf_app, sumf_cons.
      unfold fh at 2, ah at 2. rewrite E. cbn [sumf fold_right]. lia. }
    constructor.
    - subst q1. cbn [with_hs with_peers q_active q_peers]. rewrite (i_act _ _ _ V), (sumf_perm _ bz _ _ P), sumf_cons. replace (bz p) with 1%nat by (unfold bz; rewrite E; reflexivity). lia.
    - subst q1. exact (proj1 (removed_ids _ _ _ H (i_ids _ _ _ V))).
    - subst q1. exact (i_len _ _ _ V).
    - subst q1. exact (i_pend _ _ _ V).
    - intros h. rewrite C. subst q1. exact (i_cnt _ _ _ V h).
    - intros Eb h. rewrite C. subst q1. exact (i_full _ _ _ V Eb h).
    - intros Eb x y I1. subst q1. exact (i_timer _ _ _ V Eb x y (removed_in _ _ _ _ H I1)).
    - intros x y I1. subst q1. exact (i_win _ _ _ V x y (removed_in _ _ _ _ H I1)).
    - subst q1. exact (i_low _ _ _ V).
    - subst q1. exact (i_top _ _ _ V).
  Qed.

  Lemma lose_busy : forall b q k p f, inv b q -> nth_error (q_peers q) k = Some p -> p_f p = Some f ->
    inv false (with_peers q (remove_peer k (q_peers q)) (q_active q - 1)).
  Proof.
    intros b q k p f V H E. pose proof (remove_perm _ _ _ H) as P. constructor; try discriminate.
    - cbn [with_hs with_peers q_active q_peers]. rewrite (i_act _ _ _ V), (sumf_perm _ bz _ _ P), sumf_cons. replace (bz p) with 1%nat by (unfold bz; rewrite E; reflexivity). lia.
    - exact (proj1 (removed_ids _ _ _ H (i_ids _ _ _ V))).
    - exact (i_len _ _ _ V).
    - exact (i_pend _ _ _ V).
    - intros h. unfold cnt, room. cbn [with_hs with_peers q_peers q_hs q_pending additional q_offset]. pose proof (i_cnt _ _ _ V h) as C. unfold cnt, room in C.
      rewrite (sumf_perm _ (fh h) _ _ P), sumf_cons in C. lia.
    - intros x y I1. exact (i_win _ _ _ V x y (removed_in _ _ _ _ H I1)).
    - exact (i_low _ _ _ V).
    - exact (i_top _ _ _ V).
  Qed.

  Lemma inv_weak : forall b q, inv b q -> inv false q.
  Proof. intros b q []. constructor; auto; discriminate. Qed.

  (** The same peers with another state of the fetchers. *)
  Lemma set_fetcher_ok : forall b q k p f f', inv b q -> nth_error (q_peers q) k = Some p -> p_f p = Some f ->
    f_height f' = f_height f -> (f_timer f <> None -> f_timer f' <> None) ->
    inv b (set_fetcher q k p f') /\ ids (set_fetcher q k p f') = ids q /\ (sat q -> sat (set_fetcher q k p f')).
  Proof.
    intros b q k p f f' V H E EH ET. destruct (nth_split' _ _ _ _ H) as (a & r & EA & <-).
    unfold set_fetcher. rewrite EA, set_nth_split.
    remember (mkPeer (p_id p) (p_req p) (Some f')) as p' eqn:Ep.
    assert (EF : p_f p' = Some f') by (subst p'; reflexivity). assert (EI : p_id p' = p_id p) by (subst p'; reflexivity). clear Ep.
    assert (IDS : map p_id (a ++ p' :: r) = map p_id (q_peers q)).
    { rewrite EA, !map_app. cbn [map]. rewrite EI. reflexivity. }
    assert (C : forall h, cnt (with_peers q (a ++ p' :: r) (q_active q)) h = cnt q h).
    { intros h. unfold cnt. cbn [with_hs with_peers q_peers q_hs q_pending additional]. rewrite EA, !sumf_app, !sumf_cons. unfold fh at 2 5. rewrite EF, E, EH. reflexivity. }
    assert (IN : forall x g, In x (a ++ p' :: r) -> p_f x = Some g -> (g = f' /\ x = p') \/ In x (q_peers q)).
    { intros x g I1 E1. rewrite EA. apply in_app_iff in I1. destruct I1 as [I1|[<- |I1]].
      - right. apply in_or_app. left. exact I1.
      - left. rewrite EF in E1. injection E1 as <-. auto.
      - right. apply in_or_app. right. right. exact I1. }
    assert (IP : In p (q_peers q)) by (rewrite EA; apply in_or_app; right; left; reflexivity).
    split; [|split].
    - constructor.
      + cbn [with_hs with_peers q_active q_peers]. rewrite (i_act _ _ _ V), EA, !sumf_app, !sumf_cons. unfold bz at 2 5. rewrite EF, E. reflexivity.
      + cbn [with_peers q_peers]. rewrite IDS. exact (i_ids _ _ _ V).
      + exact (i_len _ _ _ V).
      + exact (i_pend _ _ _ V).
      + intros h. rewrite C. exact (i_cnt _ _ _ V h).
      + intros Eb h. rewrite C. exact (i_full _ _ _ V Eb h).
      + intros Eb x g I1 E1. destruct (IN x g I1 E1) as [[-> _]|I2]; [exact (ET (i_timer _ _ _ V Eb p f IP E))|exact (i_timer _ _ _ V Eb x g I2 E1)].
      + intros x g I1 E1. destruct (IN x g I1 E1) as [[-> _]|I2]; [rewrite EH; exact (i_win _ _ _ V p f IP E)|exact (i_win _ _ _ V x g I2 E1)].
      + exact (i_low _ _ _ V).
      + exact (i_top _ _ _ V).
    - exact IDS.
    - assert (L : length (a ++ p' :: r) = length (q_peers q)) by (rewrite EA, !app_length; reflexivity).
      unfold sat. cbn [q_active q_peers q_hs q_offset with_peers]. rewrite L. exact (fun H => H).
  Qed.

  (** ** Giving results up *)

  Lemma give_up_ok : forall i l hs, (forall r, In (Some r) l -> r_height r < h_begin hs) ->
    exists l' hs', give_up i l hs = Some (l', hs') /\ length l' = length l /\ h_begin hs' = h_begin hs /\ h_end hs' = h_end hs
      /\ (forall k r, nth_error l' k = Some (Some r) -> nth_error l k = Some (Some r) /\ r_peer r <> i)
      /\ forall h, (sumf (ph h) l' + sumf (ah h) (additional hs') = sumf (ph h) l + sumf (ah h) (additional hs))%nat.
  Proof.
    intros i. induction l as [|o l IH]; intros hs B; cbn [give_up].
    - exists [], hs. split; [reflexivity|]. split; [reflexivity|]. split; [reflexivity|]. split; [reflexivity|]. split.
      + intros k r H. destruct k; discriminate.
      + intros h. reflexivity.
    - assert (B' : forall r, In (Some r) l -> r_height r < h_begin hs) by (intros r I1; apply B; right; exact I1).
      destruct o as [r|].
      + destruct (Nat.eqb_spec (r_peer r) i) as [Ei|Ei].
        * rewrite hs_add_ok; [|apply B; left; reflexivity].
          destruct (IH (mkHeights (h_begin hs) (h_end hs) (additional hs ++ [r_height r])) B') as (l' & hs' & E & L & HB & HE & N & S1).
          rewrite E. cbn [option_map]. exists (None :: l'), hs'. split; [reflexivity|]. split; [cbn; rewrite L; reflexivity|].
          split; [exact HB|]. split; [exact HE|]. split.
          -- intros k r0 H. destruct k as [|k]; [discriminate|]. exact (N k r0 H).
          -- intros h. specialize (S1 h). cbn [additional] in S1. rewrite sumf_app, sumf_cons in S1. rewrite !sumf_cons.
             unfold ph at 1 3. unfold ah at 3 in S1. cbn [sumf fold_right] in S1. lia.
        * destruct (IH hs B') as (l' & hs' & E & L & HB & HE & N & S1).
          rewrite E. cbn [option_map]. exists (Some r :: l'), hs'. split; [reflexivity|]. split; [cbn; rewrite L; reflexivity|].
          split; [exact HB|]. split; [exact HE|]. split.
          -- intros k r0 H. destruct k as [|k]; [|exact (N k r0 H)]. cbn in H. injection H as <-. split; [reflexivity|exact Ei].
          -- intros h. specialize (S1 h). rewrite !sumf_cons. lia.
      + destruct (IH hs B') as (l' & hs' & E & L & HB & HE & N & S1).
        rewrite E. cbn [option_map]. exists (None :: l'), hs'. split; [reflexivity|]. split; [cbn; rewrite L; reflexivity|].
        split; [exact HB|]. split; [exact HE|]. split.
        * intros k r0 H. destruct k as [|k]; [discriminate|]. exact (N k r0 H).
        * intros h. specialize (S1 h). rewrite !sumf_cons. lia.
  Qed.

  (** Pending results become heights to fetch. *)
  Lemma repend_ok : forall b q pd hs, inv b q -> length pd = length (q_pending q) ->
    (forall k r, nth_error pd k = Some (Some r) -> nth_error (q_pending q) k = Some (Some r)) ->
    h_begin hs = h_begin (q_hs q) -> h_end hs = h_end (q_hs q) ->
    (forall h, (sumf (ph h) pd + sumf (ah h) (additional hs) = sumf (ph h) (q_pending q) + sumf (ah h) (additional (q_hs q)))%nat) ->
    inv b (with_hs (with_pending q pd) hs).
  Proof.
    intros b q pd hs V L N HB HE S1.
    assert (C : forall h, cnt (with_hs (with_pending q pd) hs) h = cnt q h) by (intros h; unfold cnt; cbn [with_hs with_pending q_peers q_hs q_pending]; specialize (S1 h); lia).
    assert (R : forall h, room (with_hs (with_pending q pd) hs) h = room q h) by (intros h; unfold room; cbn; rewrite HB; reflexivity).
    constructor.
    - exact (i_act _ _ _ V).
    - exact (i_ids _ _ _ V).
    - cbn. rewrite L. exact (i_len _ _ _ V).
    - intros k r H. exact (i_pend _ _ _ V k r (N k r H)).
    - intros h. rewrite C, R. exact (i_cnt _ _ _ V h).
    - intros Eb h. rewrite C, R. exact (i_full _ _ _ V Eb h).
    - exact (i_timer _ _ _ V).
    - exact (i_win _ _ _ V).
    - cbn. rewrite HB. exact (i_low _ _ _ V).
    - cbn. rewrite HB, HE. exact (i_top _ _ _ V).
  Qed.
End Ops.
