(** What the steps of a request do. *)
From Coq Require Import ZArith List Bool Arith Lia Permutation.
From Verif Require Import Model.Bytes Model.FastSync Spec.FastSyncSpec Proof.FastSyncFacts Proof.FastSyncInv Proof.FastSyncOps.
Import ListNotations.
Open Scope Z_scope.

Section Steps.
  Variable parse : bytes -> option Z.
  Local Notation inv := (inv parse).

  (** A request which goes on: the same place, no new peers, no new results. *)
  Record goes (q q' : request) : Prop := {
    g_no : q_no q' = q_no q;
    g_off : q_offset q' = q_offset q;
    g_end : h_end (q_hs q') = h_end (q_hs q)
  }.

  Definition fewer (q q' : request) : Prop :=
    (forall i, In i (ids q') -> In i (ids q)) /\ (forall r, In (Some r) (q_pending q') -> In (Some r) (q_pending q)).

  Lemma keeps_goes : forall q q', keeps q q' -> goes q q'.
  Proof. intros q q' []. constructor; assumption. Qed.

  Lemma goes_trans : forall a b c, goes a b -> goes b c -> goes a c.
  Proof. intros a b c [] []. constructor; congruence. Qed.

  Lemma keeps_fewer : forall q q', keeps q q' -> fewer q q'.
  Proof. intros q q' []. unfold fewer, ids. rewrite k_ids, k_pend. auto. Qed.

  Lemma fewer_trans : forall a b c, fewer a b -> fewer b c -> fewer a c.
  Proof. intros a b c [] []. split; auto. Qed.

  Lemma keeps_hd : forall q q', keeps q q' -> hd_pending q' = hd_pending q.
  Proof. intros q q' K. unfold hd_pending. rewrite (k_pend _ _ K). reflexivity. Qed.

  Lemma on_join_ok : forall net b q i, inv b q -> sat q -> (b = true -> never_fails net) ->
    exists q', on_join net q i = Some q' /\ inv b q' /\ sat q' /\ goes q q' /\ q_pending q' = q_pending q
      /\ (forall j, In j (ids q') -> In j (ids q) \/ j = i) /\ (forall j, In j (ids q) -> In j (ids q')).
  Proof.
    intros net b q i V S1 NF. unfold on_join. destruct (existsb (has_id i) (q_peers q)) eqn:EX.
    - exists q. split; [reflexivity|]. split; [exact V|]. split; [exact S1|]. split; [constructor; reflexivity|].
      split; [reflexivity|]. split; auto.
    - remember (with_peers q (q_peers q ++ [mkPeer i 0 None]) (q_active q)) as q1 eqn:E1.
      assert (V1 : inv b q1).
      { assert (C : forall h, cnt q1 h = cnt q h).
        { intros h. subst q1. unfold cnt. cbn [with_peers q_peers q_hs q_pending]. rewrite sumf_app. cbn [sumf fold_right].
          unfold fh at 2. cbn [p_f]. lia. }
        assert (IN : forall p f, In p (q_peers q1) -> p_f p = Some f -> In p (q_peers q)).
        { intros p f I1 E. subst q1. cbn [with_peers q_peers] in I1. apply in_app_iff in I1. destruct I1 as [I1|[<- |[]]]; [exact I1|discriminate E]. }
        constructor.
        - subst q1. cbn [with_peers q_active q_peers]. rewrite (i_act _ _ _ V), sumf_app. cbn [sumf fold_right]. unfold bz at 3. cbn [p_f]. lia.
        - subst q1. cbn [with_peers q_peers]. rewrite map_app. cbn [map p_id].
          apply (Permutation_NoDup (l := i :: map p_id (q_peers q))); [apply Permutation_cons_append|].
          constructor; [|exact (i_ids _ _ _ V)]. intros I1. apply in_map_iff in I1. destruct I1 as (p & Ep & I1).
          assert (T : existsb (has_id i) (q_peers q) = true).
          { apply existsb_exists. exists p. split; [exact I1|]. unfold has_id. apply Nat.eqb_eq. exact Ep. }
          rewrite T in EX. discriminate EX.
        - subst q1. exact (i_len _ _ _ V).
        - subst q1. exact (i_pend _ _ _ V).
        - intros h. rewrite C. subst q1. exact (i_cnt _ _ _ V h).
        - intros Eb h. rewrite C. subst q1. exact (i_full _ _ _ V Eb h).
        - intros Eb p f I1 E. exact (i_timer _ _ _ V Eb p f (IN p f I1 E) E).
        - intros p f I1 E. pose proof (i_win _ _ _ V p f (IN p f I1 E) E) as W. subst q1. exact W.
        - subst q1. exact (i_low _ _ _ V).
        - subst q1. exact (i_top _ _ _ V). }
      destruct (resched_ok parse net b q1 V1) as (q' & E' & V' & K & S').
      { intros Eb j _. exact (NF Eb j). }
      exists q'. split; [exact E'|]. split; [exact V'|]. split; [exact S'|].
      pose proof (k_ids _ _ K) as KI. assert (IDS : ids q' = ids q ++ [i]).
      { unfold ids. rewrite KI. subst q1. cbn [with_peers q_peers]. rewrite map_app. reflexivity. }
      split; [|split; [|split]].
      + apply (goes_trans _ q1); [subst q1; constructor; reflexivity|exact (keeps_goes _ _ K)].
      + rewrite (k_pend _ _ K). subst q1. reflexivity.
      + intros j I1. rewrite IDS in I1. apply in_app_iff in I1. destruct I1 as [I1|[<- |[]]]; auto.
      + intros j I1. rewrite IDS. apply in_or_app. left. exact I1.
  Qed.

  Lemma has_id_eq : forall i p, has_id i p = true -> p_id p = i.
  Proof. intros i p H. apply Nat.eqb_eq in H. exact H. Qed.

  Lemma on_leave_ok : forall net b q i, inv b q -> sat q -> (b = true -> never_fails net) ->
    exists q', on_leave net q i = Some q' /\ inv b q' /\ sat q' /\ goes q q' /\ q_pending q' = q_pending q
      /\ (forall j, In j (ids q') <-> In j (ids q) /\ j <> i).
  Proof.
    intros net b q i V S1 NF. unfold on_leave. destruct (find_peer (has_id i) (q_peers q)) as [[k p]|] eqn:F.
    - destruct (find_peer_spec _ _ _ _ F) as (N & HI). apply has_id_eq in HI.
      assert (IDS : forall j, In j (map p_id (remove_peer k (q_peers q))) <-> In j (ids q) /\ j <> i).
      { intros j. pose proof (removed_ids _ _ _ N (i_ids _ _ _ V)) as (_ & NI). rewrite HI in NI.
        pose proof (Permutation_map p_id (remove_perm _ _ _ N)) as P. cbn [map] in P. rewrite HI in P. fold (ids q) in P. split.
        - intros I1. split; [exact (Permutation_in j (Permutation_sym P) (or_intror I1))|]. intros ->. exact (NI I1).
        - intros [I1 NE]. pose proof (Permutation_in j P I1) as I2. destruct I2 as [E|I2]; [congruence|exact I2]. }
      destruct (p_f p) as [f|] eqn:EF.
      + pose proof (fetching_in parse b q p f V (nth_error_In _ _ N) EF) as B.
        rewrite hs_add_ok; [|lia].
        pose proof (drop_busy parse b q k p f V N EF) as V1.
        match type of V1 with FastSyncInv.inv _ _ ?x => remember x as q1 eqn:E1 end.
        destruct (resched_ok parse net b q1 V1) as (q' & E' & V' & K & S'); [intros Eb j _; exact (NF Eb j)|].
        exists q'. split; [exact E'|]. split; [exact V'|]. split; [exact S'|]. split; [|split].
        * apply (goes_trans _ q1); [subst q1; constructor; reflexivity|exact (keeps_goes _ _ K)].
        * rewrite (k_pend _ _ K). subst q1. reflexivity.
        * intros j. unfold ids at 1. rewrite (k_ids _ _ K). subst q1. exact (IDS j).
      + exists (with_peers q (remove_peer k (q_peers q)) (q_active q)). split; [reflexivity|].
        split; [exact (drop_idle parse b q k p V N EF)|]. split; [exact (drop_idle_sat parse b q k p V S1 N EF)|].
        split; [constructor; reflexivity|]. split; [reflexivity|]. exact IDS.
    - exists q. split; [reflexivity|]. split; [exact V|]. split; [exact S1|]. split; [constructor; reflexivity|].
      split; [reflexivity|]. intros j. split; [|intros [H _]; exact H]. intros I1. split; [exact I1|]. intros ->.
      apply in_map_iff in I1. destruct I1 as (p & E & I1). pose proof (find_peer_none _ _ F p I1) as H.
      unfold has_id in H. rewrite E, Nat.eqb_refl in H. discriminate H.
  Qed.

  Lemma nth_In_pend : forall (l l' : list (option result)),
    (forall k r, nth_error l' k = Some (Some r) -> nth_error l k = Some (Some r)) -> forall r, In (Some r) l' -> In (Some r) l.
  Proof. intros l l' H r I1. apply In_nth_error in I1. destruct I1 as (k & E). exact (nth_error_In _ _ (H k r E)). Qed.

  Lemma on_error_ok : forall net b q k p f nb, inv b q -> nth_error (q_peers q) k = Some p -> p_f p = Some f ->
    (b = true -> forall j, j <> p_id p -> net j <> Failed) ->
    (on_error net q k (p_id p) f nb = Some (None, [OnEnd (q_no q) true]) /\ hd_pending q = None /\ q_peers q = [p])
    \/ exists q', on_error net q k (p_id p) f nb = Some (Some q', []) /\ inv b q' /\ sat q' /\ goes q q' /\ fewer q q'
         /\ hd_pending q' = hd_pending q /\ ~ In (p_id p) (ids q') /\ (length (q_peers q) = S (length (q_peers q'))).
  Proof.
    intros net b q k p f nb V N EF NF. unfold on_error.
    pose proof (fetching_in parse b q p f V (nth_error_In _ _ N) EF) as B.
    rewrite hs_add_ok; [|lia].
    pose proof (drop_busy parse b q k p f V N EF) as V1.
    match type of V1 with FastSyncInv.inv _ _ ?x => remember x as q1 eqn:E1 end.
    cbv zeta.
    assert (X : exists pd hs2, (if nb then Some (q_pending q1, q_hs q1)
             else match q_pending q1 with
                  | [] => Some ([], q_hs q1)
                  | x :: rest => option_map (fun '(l, h) => (x :: l, h)) (give_up (p_id p) rest (q_hs q1))
                  end) = Some (pd, hs2) /\ inv b (with_hs (with_pending q1 pd) hs2)
             /\ hd None pd = hd None (q_pending q1)
             /\ h_end hs2 = h_end (q_hs q1)
             /\ (forall k r, nth_error pd k = Some (Some r) -> nth_error (q_pending q1) k = Some (Some r))).
    { destruct nb.
      - exists (q_pending q1), (q_hs q1). split; [reflexivity|]. split; [|auto]. apply repend_ok; auto.
      - assert (BD : forall r, In (Some r) (q_pending q1) -> r_height r < h_begin (q_hs q1)).
        { intros r I1. pose proof (pending_in parse b q1 r V1 I1). lia. }
        destruct (q_pending q1) as [|x rest] eqn:EP.
        + exfalso. pose proof (i_len _ _ _ V1) as L. rewrite EP in L. discriminate L.
        + destruct (give_up_ok (p_id p) rest (q_hs q1)) as (l' & hs' & E & L & HB & HE & NN & SS).
          { intros r I1. apply BD. right. exact I1. }
          rewrite E. cbn [option_map]. exists (x :: l'), hs'. split; [reflexivity|].
          assert (NN' : forall k0 r, nth_error (x :: l') k0 = Some (Some r) -> nth_error (x :: rest) k0 = Some (Some r)).
          { intros k0 r H. destruct k0 as [|k0]; [exact H|]. exact (proj1 (NN k0 r H)). }
          split; [|auto]. apply repend_ok; auto; rewrite ?EP.
          * cbn [length]. rewrite L. reflexivity.
          * exact NN'.
          * intros h. rewrite !sumf_cons. specialize (SS h). lia. }
    destruct X as (pd & hs2 & EX & V2 & HD & HE2 & NN).
    rewrite EX.
    clear EX.
    remember (with_hs (with_pending q1 pd) hs2) as q2 eqn:E2.
    assert (G2 : goes q q2). { subst q2 q1. constructor; cbn; auto. }
    assert (P2 : q_peers q2 = remove_peer k (q_peers q)) by (subst q2 q1; reflexivity).
    assert (H2 : hd_pending q2 = hd_pending q). { subst q2 q1. exact HD. }
    assert (N2 : q_no q2 = q_no q) by (exact (g_no _ _ G2)).
    pose proof (remove_perm _ _ _ N) as PM.
    assert (F2 : fewer q q2).
    { split.
      - intros i I1. unfold ids in *. rewrite P2 in I1. exact (removed_map _ _ _ _ N I1).
      - intros r I1. subst q2 q1. exact (nth_In_pend _ _ NN r I1). }
    assert (NI : ~ In (p_id p) (ids q2)).
    { unfold ids. rewrite P2. exact (proj2 (removed_ids _ _ _ N (i_ids _ _ _ V))). }
    assert (L2 : length (q_peers q) = S (length (q_peers q2))). { rewrite P2. exact (Permutation_length PM). }
    destruct (q_peers q2) as [|y ys] eqn:EP2.
    - destruct (hd_pending q2) as [r|] eqn:EH.
      + right. exists q2. split; [reflexivity|]. split; [exact V2|]. split.
        { right. left. rewrite (i_act _ _ _ V2), EP2. reflexivity. }
        split; [exact G2|]. split; [exact F2|]. split; [congruence|]. split; [exact NI|]. rewrite EP2. exact L2.
      + left. rewrite N2. split; [reflexivity|]. split; [congruence|].
        rewrite <- P2 in PM. apply Permutation_sym in PM. exact (Permutation_length_1_inv PM).
    - right. destruct (resched_ok parse net b q2 V2) as (q' & E' & V' & K & S').
      { intros Eb i I1. apply (NF Eb). intros ->. exact (NI I1). }
      exists q'. rewrite E'. cbn [go_on]. split; [reflexivity|]. split; [exact V'|]. split; [exact S'|].
      split; [exact (goes_trans _ _ _ G2 (keeps_goes _ _ K))|]. split; [exact (fewer_trans _ _ _ F2 (keeps_fewer _ _ K))|].
      split; [rewrite (keeps_hd _ _ K); exact H2|]. split.
      + unfold ids. rewrite (k_ids _ _ K). exact NI.
      + rewrite L2. rewrite <- EP2. f_equal. rewrite <- (map_length p_id (q_peers q2)), <- (map_length p_id (q_peers q')), (k_ids _ _ K). reflexivity.
  Qed.
  Lemma hd_nth : forall q r, hd_pending q = Some r -> nth_error (q_pending q) 0 = Some (Some r).
  Proof. intros q r. unfold hd_pending. destruct (q_pending q) as [|x l]; [discriminate|]. cbn. intros ->. reflexivity. Qed.

  Lemma on_block_ok : forall net b q k p f data votes, inv b q -> nth_error (q_peers q) k = Some p -> p_f p = Some f ->
    parse data = Some (f_height f) -> (b = true -> never_fails net) ->
    exists q' r, on_block net q k (p_id p) f data votes = Some (Some q', if f_height f - q_offset q =? 0 then [OnBlock r] else [])
      /\ r = mkResult (q_no q) (p_id p) (f_height f) data votes
      /\ inv b q' /\ sat q' /\ goes q q' /\ ids q' = ids q
      /\ (forall x, In (Some x) (q_pending q') -> x = r \/ In (Some x) (q_pending q))
      /\ (if f_height f - q_offset q =? 0 then hd_pending q = None /\ hd_pending q' = Some r /\ r_height r <= h_end (q_hs q)
          else hd_pending q' = hd_pending q).
  Proof.
    intros net b q k p f data votes V N EF PA NF. unfold on_block. rewrite N.
    pose proof (nth_error_In _ _ N) as IP.
    pose proof (fetching_in parse b q p f V IP EF) as B. pose proof (i_win _ _ _ V p f IP EF) as W.
    pose proof (i_len _ _ _ V) as L. cbv zeta.
    replace ((f_height f - q_offset q <? 0) || (Z.of_nat (length (q_pending q)) <=? f_height f - q_offset q)) with false.
    2: { symmetry. apply orb_false_iff. split; [apply Z.ltb_ge; lia|apply Z.leb_gt; lia]. }
    remember (mkResult (q_no q) (p_id p) (f_height f) data votes) as r eqn:Er.
    assert (RH : r_height r = f_height f) by (subst r; reflexivity).
    remember (Z.to_nat (f_height f - q_offset q)) as m eqn:Em.
    destruct (nth_error (q_pending q) m) as [o|] eqn:EO.
    2: { exfalso. apply nth_error_None in EO. lia. }
    destruct (nth_split' _ _ _ _ EO) as (pa & pb & EP & LP).
    assert (ON : o = None).
    { destruct o as [x|]; [|reflexivity]. exfalso.
      destruct (i_pend _ _ _ V m x EO) as (XH & _). pose proof (i_cnt _ _ _ V (f_height f)) as C. pose proof (room_le1 q (f_height f)) as R1.
      unfold cnt in C. pose proof (sumf_in _ (fh (f_height f)) p _ IP) as S1. unfold fh at 1 in S1. rewrite EF, same_eq in S1.
      pose proof (sumf_in _ (ph (f_height f)) (Some x) _ (nth_error_In _ _ EO)) as S2. unfold ph at 1 in S2.
      rewrite XH in S2. replace (q_offset q + Z.of_nat m) with (f_height f) in S2 by lia. rewrite same_eq in S2. lia. }
    subst o.
    destruct (nth_split' _ _ _ _ N) as (a & c & EA & LA).
    remember (mkPeer (p_id p) (p_req p) None) as p' eqn:Ep.
    assert (E1 : set_nth k p' (q_peers q) = a ++ p' :: c) by (rewrite EA, <- LA; apply set_nth_split).
    assert (E2 : set_nth m (Some r) (q_pending q) = pa ++ Some r :: pb) by (rewrite EP, <- LP; apply set_nth_split).
    rewrite E1, E2.
    remember (with_pending (with_peers q (a ++ p' :: c) (q_active q - 1)) (pa ++ Some r :: pb)) as q1 eqn:Eq1.
    assert (PF : p_f p' = None) by (subst p'; reflexivity). assert (PI : p_id p' = p_id p) by (subst p'; reflexivity).
    assert (IDS : map p_id (a ++ p' :: c) = map p_id (q_peers q)) by (rewrite EA, !map_app; cbn [map]; rewrite PI; reflexivity).
    assert (V1 : inv b q1).
    { assert (C : forall h, cnt q1 h = cnt q h).
      { intros h. subst q1. unfold cnt. cbn [with_peers with_pending q_peers q_hs q_pending].
        rewrite EA, EP, !sumf_app, !sumf_cons. unfold fh at 2 5, ph at 2 5. rewrite PF, EF, RH. lia. }
      assert (IN : forall x g, In x (q_peers q1) -> p_f x = Some g -> In x (q_peers q)).
      { intros x g I1 E. subst q1. cbn [with_peers with_pending q_peers] in I1. rewrite EA. apply in_app_iff in I1.
        destruct I1 as [I1|[<- |I1]]; [apply in_or_app; left; exact I1|rewrite PF in E; discriminate E|apply in_or_app; right; right; exact I1]. }
      constructor.
      - subst q1. cbn [with_peers with_pending q_active q_peers]. rewrite (i_act _ _ _ V), EA, !sumf_app, !sumf_cons.
        replace (bz p') with O by (unfold bz; rewrite PF; reflexivity). replace (bz p) with 1%nat by (unfold bz; rewrite EF; reflexivity). lia.
      - subst q1. cbn [with_peers with_pending q_peers]. rewrite IDS. exact (i_ids _ _ _ V).
      - subst q1. cbn [with_pending q_pending]. rewrite <- L, EP, !app_length. reflexivity.
      - intros j x H. subst q1. cbn [with_pending with_peers q_pending q_offset q_no] in *.
        destruct (Nat.eq_dec j m) as [-> |NE].
        + rewrite <- LP, nth_error_app2, Nat.sub_diag in H; [|lia]. cbn in H. injection H as <-. rewrite RH.
          split; [lia|]. split; [subst r; reflexivity|]. subst r. exact PA.
        + apply (i_pend _ _ _ V). rewrite EP. destruct (Nat.lt_ge_cases j (length pa)) as [Lt|Ge].
          * rewrite nth_error_app1 in *; assumption.
          * rewrite nth_error_app2 in *; try assumption. destruct (j - length pa)%nat as [|z] eqn:EZ; [lia|]. exact H.
      - intros h. rewrite C. subst q1. exact (i_cnt _ _ _ V h).
      - intros Eb h. rewrite C. subst q1. exact (i_full _ _ _ V Eb h).
      - intros Eb x g I1 E. exact (i_timer _ _ _ V Eb x g (IN x g I1 E) E).
      - intros x g I1 E. pose proof (i_win _ _ _ V x g (IN x g I1 E) E) as WW. subst q1. exact WW.
      - subst q1. exact (i_low _ _ _ V).
      - subst q1. exact (i_top _ _ _ V). }
    destruct (resched_ok parse net b q1 V1) as (q' & E' & V' & K & S'); [intros Eb j _; exact (NF Eb j)|].
    rewrite E'. exists q', r.
    assert (HH : hd_pending q' = hd None (pa ++ Some r :: pb)). { rewrite (keeps_hd _ _ K). subst q1. reflexivity. }
    assert (H0 : hd_pending q = hd None (pa ++ None :: pb)). { unfold hd_pending. rewrite EP. reflexivity. }
    split; [|split; [reflexivity|split; [exact V'|split; [exact S'|split; [|split; [|split]]]]]].
    - destruct (f_height f - q_offset q =? 0) eqn:E0; [|reflexivity]. apply Z.eqb_eq in E0.
      assert (pa = []) as -> by (destruct pa; [reflexivity|exfalso; cbn in LP; lia]). cbn [app hd] in HH. rewrite HH. reflexivity.
    - apply (goes_trans _ q1); [subst q1; constructor; reflexivity|exact (keeps_goes _ _ K)].
    - unfold ids. rewrite (k_ids _ _ K). subst q1. exact IDS.
    - intros x I1. rewrite (k_pend _ _ K) in I1. subst q1. cbn [with_pending q_pending] in I1. apply in_app_iff in I1. rewrite EP.
      destruct I1 as [I1|[I1|I1]]; [right; apply in_or_app; left; exact I1|left; congruence|right; apply in_or_app; right; right; exact I1].
    - destruct (f_height f - q_offset q =? 0) eqn:E0.
      + apply Z.eqb_eq in E0. assert (pa = []) as -> by (destruct pa; [reflexivity|exfalso; cbn in LP; lia]). cbn [app hd] in *.
        split; [exact H0|]. split; [exact HH|]. rewrite RH. pose proof (i_top _ _ _ V). lia.
      + apply Z.eqb_neq in E0. destruct pa as [|y pa]; [exfalso; cbn in LP; lia|]. cbn [app hd] in *. congruence.
  Qed.

  Lemma consume_ok : forall net b q r, inv b q -> hd_pending q = Some r -> (b = true -> never_fails net) ->
    (consume net q = Some (None, [OnEnd (q_no q) false])
       /\ (h_end (q_hs q) < q_offset q + 1 \/ (q_peers q = [] /\ nth 1 (q_pending q) None = None)))
    \/ exists q', consume net q = Some (Some q', match hd_pending q' with Some r => [OnBlock r] | None => [] end)
         /\ inv b q' /\ sat q' /\ q_no q' = q_no q /\ q_offset q' = q_offset q + 1 /\ h_end (q_hs q') = h_end (q_hs q)
         /\ q_offset q' <= h_end (q_hs q') /\ fewer q q' /\ ids q' = ids q /\ hd_pending q' = nth 1 (q_pending q) None.
  Proof.
    intros net b q r V HD NF. unfold consume.
    pose proof (hd_nth _ _ HD) as N0. destruct (i_pend _ _ _ V 0%nat r N0) as (RH & _).
    pose proof (pending_in parse b q r V (nth_error_In _ _ N0)) as RB. change (Z.of_nat 0) with 0 in RH.
    destruct (q_pending q) as [|o l] eqn:EP; [discriminate N0|]. cbn in N0. injection N0 as ->. cbn [tl].
    pose proof (i_len _ _ _ V) as L. rewrite EP in L. cbn [length] in L.
    remember (mkReq (q_no q) (q_fetch q) (q_hs q) (q_peers q) (q_active q) (q_offset q + 1) (l ++ [None]) (q_fresh q)) as q1 eqn:E1.
    assert (PB : forall k x, nth_error (l ++ [None]) k = Some (Some x) -> nth_error (q_pending q) (S k) = Some (Some x)).
    { intros k x H. rewrite EP. cbn [nth_error]. destruct (Nat.lt_ge_cases k (length l)) as [Lt|Ge].
      - rewrite nth_error_app1 in H; assumption.
      - rewrite nth_error_app2 in H; [|exact Ge]. exfalso. destruct (k - length l)%nat as [|[|z]]; discriminate H. }
    assert (V1 : inv b q1).
    { assert (C : forall h, (cnt q1 h + same (q_offset q) h = cnt q h)%nat).
      { intros h. subst q1. unfold cnt. cbn [q_peers q_hs q_pending]. rewrite EP, sumf_app, !sumf_cons.
        assert (Z1 : ph h (Some r) = same (q_offset q) h) by (unfold ph; f_equal; lia). rewrite Z1.
        change (sumf (ph h) []) with O. change (ph h None) with O. lia. }
      assert (R : forall h, (room q1 h + same (q_offset q) h = room q h)%nat).
      { intros h. subst q1. unfold room, same. cbn [q_offset q_hs].
        destruct (Z.eqb_spec (q_offset q) h), (Z.leb_spec (q_offset q) h), (Z.leb_spec (q_offset q + 1) h), (Z.ltb_spec h (h_begin (q_hs q)));
          cbn [andb]; lia. }
      constructor.
      - subst q1. exact (i_act _ _ _ V).
      - subst q1. exact (i_ids _ _ _ V).
      - subst q1. cbn [q_pending]. rewrite app_length. cbn [length]. lia.
      - intros k x H. subst q1. cbn [q_pending q_offset q_no] in *. destruct (i_pend _ _ _ V (S k) x (PB k x H)) as (X1 & X2 & X3).
        split; [lia|]. split; assumption.
      - intros h. specialize (C h). specialize (R h). pose proof (i_cnt _ _ _ V h). lia.
      - intros Eb h. specialize (C h). specialize (R h). pose proof (i_full _ _ _ V Eb h). lia.
      - subst q1. exact (i_timer _ _ _ V).
      - intros p f I1 E. subst q1. cbn [q_peers q_offset] in *. pose proof (i_win _ _ _ V p f I1 E). lia.
      - subst q1. cbn [q_offset q_hs]. lia.
      - subst q1. cbn [q_offset q_hs]. pose proof (i_top _ _ _ V). lia. }
    destruct (resched_ok parse net b q1 V1) as (q2 & E2 & V2 & K & S2); [intros Eb j _; exact (NF Eb j)|].
    rewrite E2.
    assert (X1 : q_no q2 = q_no q) by (rewrite (k_no _ _ K); subst q1; reflexivity).
    assert (X2 : q_offset q2 = q_offset q + 1) by (rewrite (k_off _ _ K); subst q1; reflexivity).
    assert (X3 : h_end (q_hs q2) = h_end (q_hs q)) by (rewrite (k_end _ _ K); subst q1; reflexivity).
    assert (X4 : ids q2 = ids q) by (unfold ids; rewrite (k_ids _ _ K); subst q1; reflexivity).
    assert (X5 : hd_pending q2 = nth 1 (Some r :: l) None).
    { rewrite (keeps_hd _ _ K). subst q1. cbn [nth]. destruct l; reflexivity. }
    assert (X6 : fewer q q2).
    { split; [rewrite X4; auto|]. intros x I1. rewrite (k_pend _ _ K) in I1. subst q1. cbn [q_pending] in I1.
      apply In_nth_error in I1. destruct I1 as (k & Ek). exact (nth_error_In _ _ (PB k x Ek)). }
    destruct (h_end (q_hs q2) <? q_offset q2) eqn:D1; cbn [orb].
    - left. rewrite X1. split; [reflexivity|]. left. apply Z.ltb_lt in D1. lia.
    - apply Z.ltb_ge in D1.
      assert (RGT : exists q', Some (Some q2, match hd_pending q2 with Some r0 => [OnBlock r0] | None => [] end) = Some (Some q', match hd_pending q' with Some r => [OnBlock r] | None => [] end)
         /\ inv b q' /\ sat q' /\ q_no q' = q_no q /\ q_offset q' = q_offset q + 1 /\ h_end (q_hs q') = h_end (q_hs q)
         /\ q_offset q' <= h_end (q_hs q') /\ fewer q q' /\ ids q' = ids q /\ hd_pending q' = nth 1 (Some r :: l) None).
      { exists q2. split; [reflexivity|]. split; [exact V2|]. split; [exact S2|]. split; [exact X1|]. split; [exact X2|].
        split; [exact X3|]. split; [lia|]. split; [exact X6|]. split; [exact X4|exact X5]. }
      destruct (q_peers q2) as [|y ys] eqn:EQ.
      + cbn [andb]. destruct (hd_pending q2) as [x|] eqn:EH; [right; exact RGT|].
        left. rewrite X1. split; [reflexivity|]. right. split; [|congruence].
        unfold ids in X4. rewrite EQ in X4. destruct (q_peers q); [reflexivity|discriminate X4].
      + cbn [andb]. right. exact RGT.
  Qed.

  Lemma reject_ok : forall net b q r, inv b q -> hd_pending q = Some r ->
    (b = true -> never_fails net /\ ~ busy q (r_peer r)) ->
    (reject net q r = Some (None, [OnEnd (q_no q) true]) /\ forall i, In i (ids q) -> i = r_peer r)
    \/ exists q', reject net q r = Some (Some q', []) /\ inv b q' /\ sat q' /\ goes q q' /\ fewer q q'
         /\ hd_pending q' = None /\ ~ In (r_peer r) (ids q') /\ forall x, In (Some x) (q_pending q') -> r_peer x <> r_peer r.
  Proof.
    intros net b q r V HD NF. unfold reject.
    pose proof (hd_nth _ _ HD) as N0.
    assert (X : exists q1, (match find_peer (has_id (r_peer r)) (q_peers q) with
         | None => Some q
         | Some (k, p) =>
             match p_f p with
             | None => Some (with_peers q (remove_peer k (q_peers q)) (q_active q))
             | Some _ => resched net (with_peers q (remove_peer k (q_peers q)) (q_active q - 1))
             end
         end) = Some q1 /\ inv b q1 /\ goes q q1 /\ q_pending q1 = q_pending q
         /\ (forall i, In i (ids q1) <-> In i (ids q) /\ i <> r_peer r)).
    { destruct (find_peer (has_id (r_peer r)) (q_peers q)) as [[k p]|] eqn:F.
      - destruct (find_peer_spec _ _ _ _ F) as (N & HI). apply has_id_eq in HI.
        assert (IDS : forall j, In j (map p_id (remove_peer k (q_peers q))) <-> In j (ids q) /\ j <> r_peer r).
        { intros j. pose proof (removed_ids _ _ _ N (i_ids _ _ _ V)) as (_ & NI). rewrite HI in NI.
          pose proof (Permutation_map p_id (remove_perm _ _ _ N)) as P. cbn [map] in P. rewrite HI in P. fold (ids q) in P. split.
          - intros I1. split; [exact (Permutation_in j (Permutation_sym P) (or_intror I1))|]. intros ->. exact (NI I1).
          - intros [I1 NE]. pose proof (Permutation_in j P I1) as I2. destruct I2 as [E|I2]; [congruence|exact I2]. }
        destruct (p_f p) as [f|] eqn:EF.
        + assert (Eb : b = false).
          { destruct b; [|reflexivity]. exfalso. destruct (NF eq_refl) as (_ & NB). apply NB. exists p, f.
            split; [exact (nth_error_In _ _ N)|]. split; assumption. }
          pose proof (lose_busy parse b q k p f V N EF) as V1. subst b.
          match type of V1 with FastSyncInv.inv _ _ ?x => remember x as q1 eqn:E1 end.
          destruct (resched_ok parse net false q1 V1) as (q' & E' & V' & K & S'); [discriminate|].
          exists q'. split; [exact E'|]. split; [exact V'|]. split; [|split].
          * apply (goes_trans _ q1); [subst q1; constructor; reflexivity|exact (keeps_goes _ _ K)].
          * rewrite (k_pend _ _ K). subst q1. reflexivity.
          * intros j. unfold ids at 1. rewrite (k_ids _ _ K). subst q1. exact (IDS j).
        + exists (with_peers q (remove_peer k (q_peers q)) (q_active q)). split; [reflexivity|].
          split; [exact (drop_idle parse b q k p V N EF)|].
          split; [constructor; reflexivity|]. split; [reflexivity|]. exact IDS.
      - exists q. split; [reflexivity|]. split; [exact V|]. split; [constructor; reflexivity|].
        split; [reflexivity|]. intros j. split; [|intros [H _]; exact H]. intros I1. split; [exact I1|]. intros ->.
        apply in_map_iff in I1. destruct I1 as (p & E & I1). pose proof (find_peer_none _ _ F p I1) as H.
        unfold has_id in H. rewrite E, Nat.eqb_refl in H. discriminate H. }
    destruct X as (q1 & EX & V1 & G1 & P1 & IDS1). rewrite EX. clear EX.
    rewrite <- P1 in N0. pose proof (pending_in parse b q1 r V1 (nth_error_In _ _ N0)) as RB.
    rewrite hs_add_ok; [|lia].
    assert (BD : forall x, In (Some x) (q_pending q1) -> r_height x < h_begin (q_hs q1)).
    { intros x I1. pose proof (pending_in parse b q1 x V1 I1). lia. }
    pose proof (i_len _ _ _ V1) as L1.
    destruct (q_pending q1) as [|o l] eqn:EP; [discriminate N0|]. cbn in N0. injection N0 as ->. cbn [tl].
    destruct (give_up_ok (r_peer r) l (mkHeights (h_begin (q_hs q1)) (h_end (q_hs q1)) (additional (q_hs q1) ++ [r_height r])))
      as (l' & hs' & E & L & HB & HE & NN & SS).
    { intros x I1. cbn [h_begin]. apply BD. right. exact I1. }
    rewrite E. cbv zeta. cbn [h_begin h_end additional] in *.
    assert (V2 : inv b (with_hs (with_pending q1 (None :: l')) hs')).
    { apply repend_ok; auto; rewrite ?EP.
      - cbn [length]. rewrite L. reflexivity.
      - intros k x H. destruct k as [|k]; [discriminate H|]. exact (proj1 (NN k x H)).
      - intros h. specialize (SS h). rewrite sumf_app, sumf_cons in SS. cbn [sumf fold_right] in SS. rewrite !sumf_cons.
        unfold ph at 1 3. unfold ah at 3 in SS. lia. }
    remember (with_hs (with_pending q1 (None :: l')) hs') as q2 eqn:E2.
    assert (G2 : goes q q2). { subst q2. destruct G1 as [A B C]. constructor; cbn; congruence. }
    assert (IDS2 : ids q2 = ids q1) by (subst q2; reflexivity).
    assert (PD2 : q_pending q2 = None :: l') by (subst q2; reflexivity).
    assert (F2 : fewer q q2).
    { split; [intros i I1; rewrite IDS2 in I1; exact (proj1 (proj1 (IDS1 i) I1))|].
      intros x I1. rewrite PD2 in I1. rewrite <- P1. destruct I1 as [I1|I1]; [discriminate I1|].
      apply In_nth_error in I1. destruct I1 as (k & Ek). right. exact (nth_error_In _ _ (proj1 (NN k x Ek))). }
    assert (NP : forall x, In (Some x) (q_pending q2) -> r_peer x <> r_peer r).
    { intros x I1. rewrite PD2 in I1. destruct I1 as [I1|I1]; [discriminate I1|].
      apply In_nth_error in I1. destruct I1 as (k & Ek). exact (proj2 (NN k x Ek)). }
    assert (HD2 : hd_pending q2 = None) by (unfold hd_pending; rewrite PD2; reflexivity).
    assert (NI : ~ In (r_peer r) (ids q2)).
    { rewrite IDS2. intros I1. exact (proj2 (proj1 (IDS1 _) I1) eq_refl). }
    destruct (q_peers q2) as [|y ys] eqn:EQ.
    - left. rewrite (g_no _ _ G2). split; [reflexivity|]. intros i I1.
      destruct (Nat.eq_dec i (r_peer r)) as [Ei|Ei]; [exact Ei|exfalso].
      pose proof (proj2 (IDS1 i) (conj I1 Ei)) as I2. rewrite <- IDS2 in I2. unfold ids in I2. rewrite EQ in I2. exact I2.
    - right. destruct (resched_ok parse net b q2 V2) as (q' & E' & V' & K & S'); [intros Eb j _; exact (proj1 (NF Eb) j)|].
      exists q'. rewrite E'. split; [reflexivity|]. split; [exact V'|]. split; [exact S'|].
      split; [exact (goes_trans _ _ _ G2 (keeps_goes _ _ K))|]. split; [exact (fewer_trans _ _ _ F2 (keeps_fewer _ _ K))|].
      split; [rewrite (keeps_hd _ _ K); exact HD2|]. split.
      + unfold ids. rewrite (k_ids _ _ K). exact NI.
      + intros x. rewrite (k_pend _ _ K). exact (NP x).
  Qed.
End Steps.
