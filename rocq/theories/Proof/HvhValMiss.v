(** Runs of missed votes. *)
From Verif Require Import Model.HvhState Model.HvhValidator Spec.HvhValSpec Proof.HvhValFacts Proof.HvhValTurn Proof.HvhValInv
  Proof.HvhValSeats Proof.HvhValBase Proof.HvhValVotes Proof.HvhValHist Proof.HvhValEffect Proof.HvhValMore.
From Coq Require Import ZArith String List Bool Arith Lia Permutation.
Import ListNotations.
Open Scope nat_scope.

(** ** Runs *)
Lemma struck_nil allow m : ~ struck allow m [].
Proof. intros (pre & k & post & _ & _ & H). cbn in H. lia. Qed.
Lemma repeat_snoc {A} (x : A) m r : repeat x m ++ x :: r = repeat x (S m) ++ r.
Proof. induction m; cbn; [auto|]. rewrite IHm. reflexivity. Qed.
Lemma repeat_in_all {A} (x : A) m l r : repeat x m = l ++ r -> length l + length r = m /\ l = repeat x (length l).
Proof.
  intros H. split; [rewrite <- app_length, <- H, repeat_length; auto|].
  apply Forall_eq_repeat. apply Forall_forall. intros y Hy. symmetry. apply (repeat_spec m x y). rewrite H. apply in_or_app. auto.
Qed.
Lemma struck_miss allow m bs : struck allow m (false :: bs) <-> (allow < Z.of_nat (S m))%Z \/ struck allow (S m) bs.
Proof.
  split.
  - intros (pre & k & post & E & A & L). cbn [length] in L. rewrite repeat_snoc in E. destruct (Nat.eq_dec (length post) (length bs)) as [Q|Q].
    + left. assert (LL := f_equal (@length bool) E). rewrite !app_length, !repeat_length in LL. lia.
    + right. exists pre, k, post. split; [auto|]. split; [auto | lia].
  - intros [A | (pre & k & post & E & A & L)].
    + exists [], (S m), bs. rewrite repeat_snoc. cbn. split; [auto|]. split; [exact A | auto].
    + exists pre, k, post. rewrite repeat_snoc. split; [auto|]. split; [auto | cbn; lia].
Qed.
Lemma struck_vote allow m bs : (0 <= allow)%Z -> struck allow m (true :: bs) <-> struck allow 0 bs.
Proof.
  intros pos. split.
  - intros (pre & k & post & E & A & L). cbn [length] in L.
    assert (N1 : nth_error (repeat false m ++ true :: bs) m = Some true) by (rewrite nth_error_app2; rewrite repeat_length; [rewrite Nat.sub_diag; auto | auto]).
    assert (LL := f_equal (@length bool) E). rewrite !app_length, !repeat_length in LL. cbn [length] in LL.
    destruct (le_lt_dec (length pre) m) as [Q|Q].
    + exfalso. rewrite E, nth_error_app2, nth_error_app1 in N1; [|rewrite repeat_length; lia|lia].
      apply nth_error_In in N1. apply repeat_spec in N1. discriminate.
    + exists (skipn (S m) pre), k, post. split; [|split; [auto|]].
      * assert (SK := f_equal (skipn (S m)) E). rewrite !skipn_app, repeat_length in SK.
        replace (S m - m) with 1 in SK by lia. rewrite (skipn_all2 (repeat false m)) in SK by (rewrite repeat_length; lia). cbn [skipn app] in SK.
        replace (S m - length pre) with 0 in SK by lia. cbn [repeat app]. exact SK.
      * lia.
  - intros (pre & k & post & E & A & L). exists (repeat false m ++ true :: pre), k, post. cbn [repeat app] in E. rewrite E, <- app_assoc.
    split; [auto|]. split; [auto|]. cbn. rewrite <- E. lia.
Qed.

(** What an enabled sub validator counts *)
Definition go (allow : Z) (st : Z * bool) (b : bool) : Z * bool :=
  if snd st then st else let m := (if b then 0 else fst st + 1)%Z in (m, (allow <? m)%Z).
Lemma go_stop allow bs m : fold_left (go allow) bs (m, true) = (m, true).
Proof. induction bs; cbn; auto. Qed.
Lemma go_struck allow bs : (0 <= allow)%Z -> forall m, (0 <= m)%Z -> snd (fold_left (go allow) bs (m, false)) = true <-> struck allow (Z.to_nat m) bs.
Proof.
  intros pos. induction bs as [|b r IH]; intros m Hm; cbn [fold_left].
  - split; [discriminate | intros H; contradiction (struck_nil _ _ H)].
  - unfold go at 2. cbn [fst snd]. destruct b.
    + replace (allow <? 0)%Z with false by (symmetry; apply Z.ltb_ge; lia). rewrite IH by lia. rewrite struck_vote by auto. cbn. tauto.
    + rewrite struck_miss. replace (S (Z.to_nat m)) with (Z.to_nat (m + 1)) by lia. rewrite Z2Nat.id by lia. destruct (allow <? m + 1)%Z eqn:E.
      * rewrite go_stop. cbn. apply Z.ltb_lt in E. tauto.
      * rewrite IH by lia. apply Z.ltb_ge in E. split; [auto|]. intros [H|H]; [lia | auto].
Qed.

(** ** One block *)
Lemma votes_for_same w w' o votes : v_nto w' = v_nto w -> votes_for w' o votes = votes_for w o votes.
Proof. intros E. unfold votes_for. rewrite E. auto. Qed.
Lemma votes_one votes : forall w pen w', regs w -> check_votes votes w = inr (pen, w') -> forall o i s, v_info w o = Some i -> vi_grade i = Sub ->
  v_stat w o = Some s -> vs_disq s = false -> exists s', v_stat w' o = Some s' /\
    (vs_misses s', vs_disabled s') = fold_left (go (ns_allow (v_net w))) (votes_for w o votes) (vs_misses s, vs_disabled s) /\ vs_disq s' = false.
Proof.
  induction votes as [|[n v] r IH]; intros w pen w' rg H o i s I0 G S0 D; cbn [check_votes] in H.
  - injection H as <- <-. exists s. cbn. auto.
  - unfold votes_for. cbn [filter fst]. destruct (on_vote n v w) as [[[p q] w1]|] eqn:V.
    + assert (rg1 := on_vote_regs _ _ _ _ _ _ rg V). assert (b1 := on_vote_but _ _ _ _ _ _ V). apply on_vote_some in V as (N & j & t & A & B & V).
      unfold but_stat in b1. destruct b1 as (_ & _ & b3 & b4 & _ & _ & _ & _ & _ & _ & _ & b12 & _).
      rewrite N.
      assert (X : exists s1, v_stat w1 o = Some s1 /\ vs_disq s1 = false /\
        (vs_misses s1, vs_disabled s1) = if addr_eqb q o then go (ns_allow (v_net w)) (vs_misses s, vs_disabled s) v else (vs_misses s, vs_disabled s)).
      { destruct (addr_eqb q o) eqn:E.
        - apply aeq in E. subst q. rewrite S0 in B. injection B as <-. rewrite I0 in A. injection A as <-. rewrite G in V.
          unfold enabled in V. rewrite D, andb_true_r in V. unfold go. cbn [fst snd]. destruct V as [(E & -> & ->) | (E & P & ->)].
          + apply negb_false_iff in E. rewrite E. exists s. rewrite E. auto.
          + apply negb_true_iff in E. rewrite E. eexists. vc. rewrite aupd_same. split; [reflexivity|]. cbn. split; [auto|]. rewrite P. reflexivity.
        - destruct V as [(_ & _ & ->) | (_ & _ & ->)]; [eauto|]. vc. unfold aupd.
          destruct (addr_eqb o q) eqn:F; [apply aeq in F; subst q; rewrite arefl in E; discriminate | eauto]. }
      destruct X as (s1 & X1 & X2 & X3).
      assert (Y : exists w2 pen2, same_regs w1 w2 /\ v_net w2 = v_net w1 /\ check_votes r w2 = inr (pen2, w')).
      { destruct p.
        - unfold vbind in H. destruct (check_votes r (w_log (EvPenalized q n) w1)) as [|[pen' w3]] eqn:C; [discriminate|]. injection H as <- <-.
          exists (w_log (EvPenalized q n) w1), pen'. split; [repeat split|]. auto.
        - exists w1, pen. split; [repeat split|]. auto. }
      destruct Y as (w2 & pen2 & SR & N2 & C2). assert (rg2 := regs_same _ _ SR rg1). destruct SR as (Y1 & Y2 & Y3 & _).
      destruct (IH w2 pen2 w' rg2 C2 o i s1) as (s' & Z1 & Z2 & Z3); auto; try congruence.
      exists s'. split; [auto|]. split; [|auto]. rewrite Z2, X3. rewrite N2, b12. rewrite (votes_for_same w w2) by congruence.
      destruct (addr_eqb q o); reflexivity.
    + destruct (v_nto w n) as [q|] eqn:N.
      * exfalso. unfold on_vote in V. rewrite N in V. pose proof (r_nto _ rg _ _ N) as K. destruct (v_info w q) as [j|] eqn:J; [|congruence].
        destruct (v_stat w q) as [t|] eqn:T; [destruct (enabled t); discriminate|]. apply (r_both _ rg) in T. congruence.
      * eapply IH; eauto.
Qed.

Section Miss.
Variable account_of : list Z -> option Z.
Notation effect := (effect account_of).

Lemma base_votes ix votes order w w' : vinv w -> fair (OBase ix votes order) -> base ix votes order w = inr (tt, w') ->
  forall o i s, v_info w o = Some i -> vi_grade i = Sub -> v_stat w o = Some s -> vs_disq s = false ->
  exists s', v_stat w' o = Some s' /\ vs_disq s' = false /\
   (vs_misses s', vs_disabled s') = fold_left (go (ns_allow (v_net w')))
      (if ns_decent (v_net w') && (0 <? ns_period (v_net w))%Z && (ix mod ns_period (v_net w) =? 0)%Z then votes_for w o votes else []) (vs_misses s, vs_disabled s).
Proof.
  intros iv [_ po] H o i s I0 G S0 D. destruct (base_inv ix votes order w w' (i_regs w iv) (i_nodup w iv) (i_count w iv) po H) as (w1 & T & V).
  assert (A : same_regs w w1 /\ regs w1).
  { destruct T as [(_ & _ & T) | (_ & ->)]; [|split; [apply same_refl | apply iv]]. split; [apply T | eapply regs_same; [apply T | apply iv]]. }
  destruct A as ((E1 & E2 & E3 & _) & r1).
  destruct V as [(A & (B1 & B2) & pen & adds & [_ v2 _ _ (w2 & C1 & C2 & C3 & C4 & _) _ _]) | (N & ->)].
  - unfold but_votes in v2. destruct v2 as (_ & _ & _ & _ & _ & _ & _ & _ & _ & _ & b11 & _). rewrite b11, A.
    replace (0 <? ns_period (v_net w))%Z with true by (symmetry; apply Z.ltb_lt; auto). rewrite (proj2 (Z.eqb_eq _ _) B2). cbn [andb].
    destruct (votes_one votes w1 pen w2 r1 C1 o i s) as (s' & X1 & X2 & X3); try congruence.
    exists s'. rewrite C2. split; [auto|]. split; [auto|]. rewrite X2, (votes_for_same w w1) by auto. auto.
  - exists s. rewrite E2. split; [auto|]. split; [auto|].
    destruct (ns_decent (v_net w1)) eqn:Q1; [|reflexivity]. destruct (0 <? ns_period (v_net w))%Z eqn:Q2; [|reflexivity].
    destruct (ix mod ns_period (v_net w) =? 0)%Z eqn:Q3; [|reflexivity]. exfalso. apply N. apply Z.ltb_lt in Q2. apply Z.eqb_eq in Q3. auto.
Qed.

Lemma stat_other w op w' o s : vinv w -> effect w op w' -> (forall from, op <> OEnable from o) -> (forall ix votes order, op <> OBase ix votes order) ->
  v_stat w o = Some s -> ~ disqualified w' o -> v_stat w' o = Some s.
Proof.
  intros iv H NE NB S0 ND. destruct H; try exact S0.
  - exfalso. eapply NB. reflexivity.
  - vc. unfold aupd. destruct (addr_eqb o o0) eqn:E; [|auto]. apply aeq in E. subst o0. apply (r_both _ (i_regs w iv)) in H0. congruence.
  - assert (X : v_stat w' = v_stat w1) by (destruct H6 as [(N & ->) | (act & T & ->)]; subst w1; reflexivity). rewrite X, H5. vc. unfold aupd.
    destruct (addr_eqb o o0) eqn:E; [|auto]. apply aeq in E. subst o0. contradiction ND. eexists. rewrite X, H5. vc. rewrite aupd_same. split; reflexivity.
  - assert (X : v_stat w2 = v_stat w1) by (destruct H6 as [(N & ->) | [(_ & _ & _ & ->) | (act & j & A & B & C & ->)]]; reflexivity).
    vc. rewrite X, H5. auto.
  - vc. unfold aupd. destruct (addr_eqb o o0) eqn:E; [|auto]. apply aeq in E. subst o0. contradiction (NE from). reflexivity.
Qed.

Lemma watched_inv o allow w bs w' : vinv w -> watched account_of o allow w bs w' -> vinv w'.
Proof. intros iv H. induction H; [auto|]. subst w2. eapply vinv_effect; [|apply vexec_effect]; auto. Qed.
Lemma disq_kept w op : vinv w -> fair op -> forall o, disqualified w o -> disqualified (snd (vexec account_of op w)) o.
Proof.
  intros iv fr o (s & A & B). destruct (stat_changes account_of w op _ o s iv (vexec_effect account_of op w iv fr) A) as (s' & C & D & _).
  exists s'. auto.
Qed.

Lemma watched_run o allow w bs w' : vinv w -> watched account_of o allow w bs w' -> forall i s, v_info w o = Some i -> vi_grade i = Sub -> v_stat w o = Some s ->
  ~ disqualified w' o -> exists j s', v_info w' o = Some j /\ vi_grade j = Sub /\ v_stat w' o = Some s' /\
    (vs_misses s', vs_disabled s') = fold_left (go allow) bs (vs_misses s, vs_disabled s).
Proof.
  intros iv H. induction H as [w | w bs w1 op w2 H1 IH fr NE W2 AL]; intros i s I0 G S0 ND; [exists i, s; auto|].
  assert (iv1 := watched_inv _ _ _ _ _ iv H1). assert (ef := vexec_effect account_of op w1 iv1 fr). rewrite <- W2 in ef.
  assert (ND1 : ~ disqualified w1 o) by (intros D; apply ND; rewrite W2; apply disq_kept; auto).
  destruct (IH iv i s I0 G S0 ND1) as (j & s1 & J1 & J2 & J3 & J4).
  destruct (grade_kept account_of w1 op w2 o j iv1 ef J1) as (j' & K1 & K2). rewrite J2 in K2.
  assert (D1 : vs_disq s1 = false) by (destruct (vs_disq s1) eqn:E; [contradiction ND1; exists s1; auto | auto]).
  exists j'. rewrite fold_left_app, <- J4.
  assert (OTHER : (forall ix votes order, op <> OBase ix votes order) -> exists s', v_info w2 o = Some j' /\ vi_grade j' = Sub /\ v_stat w2 o = Some s' /\
    (vs_misses s', vs_disabled s') = fold_left (go allow) (heard account_of w1 op o) (vs_misses s1, vs_disabled s1)).
  { intros NB. exists s1. split; [auto|]. split; [auto|]. split; [eapply stat_other; eauto|]. destruct op; try reflexivity. contradiction (NB ix votes order). auto. }
  destruct op; try (apply OTHER; discriminate). clear OTHER. unfold heard. subst w2. revert ND AL ef K1.
  change (vexec account_of (OBase ix votes order) w1) with (match base ix votes order w1 with inl e => (Some e, w1) | inr (_, w') => (None, w') end).
  destruct (base ix votes order w1) as [e|[[] w2]] eqn:E; cbn [fst snd]; intros ND AL ef K1.
  - exists s1. auto.
  - destruct (base_votes ix votes order w1 w2 iv1 fr E o j s1 J1 J2 J3 D1) as (s' & X1 & X2 & X3). exists s'. rewrite AL in X3. auto.
Qed.

Lemma revived_run o w k w' : vinv w -> revived account_of o w k w' -> forall s, v_stat w o = Some s ->
  vinv w' /\ exists s', v_stat w' o = Some s' /\ (vs_used s + Z.of_nat k <= vs_used s' <= 3)%Z.
Proof.
  intros iv H. induction H as [w | w k w1 op w2 ag H1 IH fr NE W2 AG LE]; intros s S0.
  - split; [auto|]. exists s. split; [auto|]. pose proof (r_stat w (i_regs w iv) o s S0). lia.
  - destruct (IH iv s S0) as (iv1 & s1 & A & B). assert (ef := vexec_effect account_of op w1 iv1 fr). rewrite <- W2 in ef.
    assert (iv2 := vinv_effect account_of w1 op w2 iv1 ef). split; [auto|].
    destruct (stat_changes account_of w1 op w2 o s1 iv1 ef A) as (s2 & C1 & _ & _ & C4 & C5). exists s2. split; [auto|].
    pose proof (r_stat w2 (i_regs w2 iv2) o s2 C1) as R2.
    assert (USED : (vs_used s2 = vs_used s1 \/ vs_used s2 = vs_used s1 + 1)%Z).
    { destruct (Z.eq_dec (vs_used s2) (vs_used s1)) as [Q|Q]; [auto|]. destruct (C4 Q) as (from & O & _ & _ & [(F & _) | (_ & _ & F & _)]); [subst; contradiction NE; auto | auto]. }
    destruct (Nat.eq_dec ag 1) as [->|Q].
    + destruct (proj1 AG eq_refl) as ((x & X1 & X2) & ND). assert (x = s1) by congruence. subst x.
      destruct (vs_disabled s2) eqn:D2; [contradiction ND; exists s2; auto|].
      destruct (C5 X2 eq_refl) as (from & O & [F | (F & U)]); [subst; contradiction NE; auto | lia].
    + lia.
Qed.
End Miss.

(** ** The count shown is the last run of misses *)
Lemma go_tail allow bs : (0 <= allow)%Z -> forall m m', (0 <= m)%Z -> fold_left (go allow) bs (m, false) = (m', false) ->
  (0 <= m')%Z /\ exists pre, repeat false (Z.to_nat m) ++ bs = pre ++ repeat false (Z.to_nat m') /\ (pre = [] \/ exists p, pre = p ++ [true]).
Proof.
  intros pos. induction bs as [|b r IH] using rev_ind; intros m m' Hm H.
  - cbn in H. injection H as <-. split; [auto|]. exists []. rewrite app_nil_r. auto.
  - rewrite fold_left_app in H. cbn [fold_left] in H. destruct (fold_left (go allow) r (m, false)) as [m1 d1] eqn:E.
    unfold go in H. cbn [fst snd] in H. destruct d1; [discriminate|]. destruct (IH m m1 Hm E) as (P & pre & A & B). rewrite app_assoc, A.
    destruct b; injection H as <- _.
    + split; [lia|]. exists ((pre ++ repeat false (Z.to_nat m1)) ++ [true]). split; [cbn; rewrite app_nil_r; auto | eauto].
    + split; [lia|]. exists pre. split; [|auto]. replace (Z.to_nat (m1 + 1)) with (Z.to_nat m1 + 1) by lia. rewrite repeat_app, app_assoc. reflexivity.
Qed.
(** ** Choosing in turn looks at these parts only *)
Lemma turn_same w w' seated k l j : v_sub w' = v_sub w -> v_index w' = v_index w -> v_info w' = v_info w -> v_stat w' = v_stat w -> v_keyed w' = v_keyed w ->
  turn w seated k l j -> turn w' seated k l j.
Proof.
  intros A B C D E. unfold turn. rewrite A, B.
  assert (R : forall x, filter (ready w' seated) x = filter (ready w seated) x).
  { intros x. induction x as [|y r IH]; cbn; [auto|]. rewrite IH. unfold ready. rewrite C, D, E. reflexivity. }
  assert (N : forall x, nodes w' x = nodes w x) by (intros x; unfold nodes; rewrite C; reflexivity).
  intros (v & rest & st & H1 & H2 & H3 & H4 & H5 & H6 & H7). exists v, rest, st. rewrite R, N.
  split; [auto|]. split; [auto|]. split; [auto|]. split; [auto|]. split; [auto|]. split; [|auto].
  intros X. destruct (H6 X) as [Y | (p & o & Y1 & Y2)]; [auto|]. right. exists p, o. split; [auto|]. unfold ready in *. rewrite C, D, E. auto.
Qed.
Lemma seats_count pen act : NoDup act -> NoDup (map snd pen) ->
  List.length (seats pen act) = List.length (filter (fun x => existsb (addr_eqb x) (map snd pen)) act).
Proof.
  intros na np.
  assert (P : Permutation (map (fun s : seat => snd (snd s)) (seats pen act)) (filter (fun x => existsb (addr_eqb x) (map snd pen)) act)).
  { apply NoDup_Permutation.
    - clear na. induction pen as [|[o n] r IH]; cbn; [constructor|]. cbn in np. inversion np; subst. destruct (index_of n act) eqn:E; [|auto].
      cbn. constructor; [|auto]. intros H. apply in_map_iff in H as ((i & (o' & n')) & X & Y). cbn in X. subst n'. apply seats_in in Y as (Y & _).
      apply H1. apply in_map_iff. exists (o', n). auto.
    - apply NoDup_filter. auto.
    - intros x. rewrite filter_In, in_map_iff. split.
      + intros ((i & (o & n)) & X & Y). cbn in X. subst n. apply seats_in in Y as (Y1 & Y2). split; [apply index_some in Y2; eapply nth_error_In; eauto|].
        apply existsb_exists. exists x. split; [apply in_map_iff; exists (o, x); auto | apply arefl].
      + intros (X & Y). apply existsb_exists in Y as (y & Y & Q). apply aeq in Q. subst y. apply in_map_iff in Y as ((o & n) & Q & Y). cbn in Q. subst n.
        destruct (index_of x act) as [i|] eqn:E; [|apply index_none in E; contradiction]. exists (i, (o, x)). split; [auto|]. apply seats_in. auto. }
  rewrite <- (Permutation_length P), map_length. auto.
Qed.
