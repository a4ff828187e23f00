(** Seated nodes, events and who may change what. *)
From Verif Require Import Model.HvhState Model.HvhValidator Spec.HvhValSpec Proof.HvhValFacts Proof.HvhValTurn Proof.HvhValInv
  Proof.HvhValSeats Proof.HvhValBase Proof.HvhValVotes Proof.HvhValHist Proof.HvhValEffect.
From Coq Require Import ZArith String List Bool Arith Lia Permutation.
Import ListNotations.
Open Scope nat_scope.

Definition is_grant (op : vop) : bool := match op with OGrant _ _ => true | _ => false end.
Definition is_set (op : vop) : bool := match op with OGrant _ _ | ORevoke _ _ => true | _ => false end.

(** ** Every seated node is the present node of a registered owner *)
Definition current (w : vworld) : Prop :=
  forall n, In n (v_active w) -> exists o i s, v_info w o = Some i /\ vi_node i = n /\ v_stat w o = Some s /\ vs_disq s = false.

Lemma live_stat w w' o : regs w -> regs w' -> v_gone w' = v_gone w -> forall s, v_stat w o = Some s -> vs_disq s = false ->
  v_info w' = v_info w -> exists s', v_stat w' o = Some s' /\ vs_disq s' = false.
Proof.
  intros r r' G s S0 D IN. destruct (v_stat w' o) as [s'|] eqn:E.
  - exists s'. split; [auto|]. destruct (vs_disq s') eqn:F; [|auto]. exfalso.
    assert (X : disqualified w' o) by (exists s'; auto). apply (r_gone _ r') in X. rewrite G in X. apply (r_gone _ r) in X as (t & A & B). congruence.
  - apply (r_both _ r') in E. rewrite IN in E. apply (r_both _ r) in E. congruence.
Qed.

Section More.
Variable account_of : list Z -> option Z.
Notation effect := (effect account_of).

Lemma current_base ix votes w w' : vinv w -> current w -> base_effect ix votes w w' -> current w'.
Proof.
  intros iv c (w1 & T & V).
  assert (A : regs w1 /\ current w1).
  { destruct T as [(_ & _ & T) | (_ & ->)]; [|split; [apply iv | auto]]. destruct T as [_ _ t3 _ _ _ _ t8 _].
    split; [eapply regs_same; [exact t3 | apply iv]|]. intros n Hn.
    destruct (term_set_nodes w _ _ n (i_regs w iv) t8 Hn) as (_ & o & g & s & N & (i & s' & I1 & I2 & I3 & I4) & _).
    destruct t3 as (E1 & E2 & _). exists o, i, s'. rewrite E1, E2. unfold node in N. rewrite I1 in N. cbn in N. injection N as N. auto. }
  destruct A as (r1 & c1).
  destruct V as [(_ & _ & pen & adds & [v1 v2 v3 _ v5 v6 _]) | (_ & ->)]; [|auto].
  unfold but_votes in v2. destruct v2 as (b1 & b2 & b3 & b4 & b5 & b6 & b7 & _).
  intros n Hn. apply v6 in Hn as [Hn | (Hn & _)].
  - destruct v5 as (w2 & C1 & C2 & C3 & C4 & [(-> & _) | (k & _ & T2 & _)]); [contradiction|].
    destruct (turn_nodes w2 _ _ _ _ n C3 T2 Hn) as ((o & N & (i & s & I1 & I2 & I3 & I4) & _) & _).
    exists o, i, s. unfold but_stat in C4. destruct C4 as (_ & _ & D1 & _). rewrite b3, <- D1, C2.
    unfold node in N. rewrite I1 in N. injection N as N. auto.
  - destruct (c1 n Hn) as (o & i & s & I1 & I2 & I3 & I4).
    destruct (live_stat w1 w' o r1 v1 b7 s I3 I4 b3) as (s' & A & B). exists o, i, s'. rewrite b3. auto.
Qed.
(** A term change while decentralised seats only current nodes, whoever sat there before. *)
Lemma current_term votes w w' : vinv w -> base_effect 0 votes w w' -> ns_decent (v_net w') = true -> current w'.
Proof.
  intros iv H D. destruct (base_fields _ _ _ _ iv H) as (_ & _ & _ & _ & _ & _ & _ & _ & _ & _ & _ & _ & _ & N).
  destruct H as (w1 & T & V).
  assert (T1 : term_result w w1).
  { destruct T as [(_ & _ & T) | ([X | (X & Y)] & ->)]; [auto | contradiction|].
    destruct N as [N | ([N|N] & _)]; congruence. }
  set (w0 := w_active [] w).
  assert (iv1 : vinv w1).
  { destruct T1 as [_ _ t3 t4 [t5 t6] _ t7 t8 _]. destruct iv. constructor.
    - eapply regs_same; eauto.
    - eapply term_set_nodup; eauto.
    - intros _. rewrite t4. destruct T as [(_ & [E|E] & _) | ([E | (E & F)] & ->)]; auto; try (contradiction); try (rewrite t7 in E; discriminate).
      unfold can_decentralize in E. apply andb_true_iff in E as [E _]. apply andb_true_iff in E as [_ E]. apply Z.leb_le in E. auto.
    - unfold vote_period, allowance in *. rewrite t5, t6, t7. cbn. unfold vote_period, allowance. tauto. }
  assert (c1 : current w1).
  { intros n Hn. destruct T1 as [_ _ t3 _ _ _ _ t8 _].
    destruct (term_set_nodes w _ _ n (i_regs w iv) t8 Hn) as (_ & o & g & s & N' & (i & s' & I1 & I2 & I3 & I4) & _).
    destruct t3 as (E1 & E2 & _). exists o, i, s'. rewrite E1, E2. unfold node in N'. rewrite I1 in N'. cbn in N'. injection N' as N'. auto. }
  destruct V as [(A & B & V) | (_ & ->)]; [|auto].
  destruct V as (pen & adds & [v1 v2 v3 _ v5 v6 _]).
  unfold but_votes in v2. destruct v2 as (b1 & b2 & b3 & b4 & b5 & b6 & b7 & _). assert (r1 := i_regs w1 iv1).
  intros n Hn. apply v6 in Hn as [Hn | (Hn & _)].
  - destruct v5 as (w2 & C1 & C2 & C3 & C4 & [(-> & _) | (k & _ & T2 & _)]); [contradiction|].
    destruct (turn_nodes w2 _ _ _ _ n C3 T2 Hn) as ((o & N' & (i & s & I1 & I2 & I3 & I4) & _) & _).
    exists o, i, s. unfold but_stat in C4. destruct C4 as (_ & _ & D1 & _). rewrite b3, <- D1, C2.
    unfold node in N'. rewrite I1 in N'. injection N' as N'. auto.
  - destruct (c1 n Hn) as (o & i & s & I1 & I2 & I3 & I4).
    destruct (live_stat w1 w' o r1 v1 b7 s I3 I4 b3) as (s' & A' & B'). exists o, i, s'. rewrite b3. auto.
Qed.

Lemma current_effect w op w' : vinv w -> current w -> is_grant op = false -> effect w op w' -> current w'.
Proof.
  intros iv c g H. assert (r := i_regs w iv). assert (nd := i_nodup w iv). destruct H; try exact c.
  - eapply current_base; eauto.
  - (* register *)
    intros m Hm. vc. destruct (c m Hm) as (p & i & s & A & B & C & D). exists p, i, s.
    assert (p <> o) by congruence. unfold aupd. apply ane in H4. rewrite H4. auto.
  - (* unregister *)
    assert (STEP : forall m, In m (v_active w) -> m <> vi_node i -> exists p j x, v_info w1 p = Some j /\ vi_node j = m /\ v_stat w1 p = Some x /\ vs_disq x = false).
    { intros m Hm Hne. destruct (c m Hm) as (p & j & x & A & B & C & D). subst w1. vc.
      assert (p <> o) by (intros ->; congruence). exists p, j, x. unfold aupd. apply ane in H5. rewrite H5. auto. }
    destruct H6 as [(N & ->) | (act & T & ->)].
    + intros m Hm. apply STEP; [subst w1; exact Hm | intros ->; apply N; subst w1; exact Hm].
    + destruct (take_out_some _ _ _ nd T) as (_ & _ & E & _). intros m Hm. vc. apply E in Hm as (Hm & Hne). auto.
  - (* info *)
    intros m Hm. vc. destruct (c m Hm) as (p & k & s & A & B & C & D). unfold aupd. destruct (addr_eqb p o) eqn:E.
    + apply aeq in E. subst p. exists o, j, s. rewrite arefl. assert (k = i) by congruence. subst k. rewrite H0. auto.
    + exists p, k, s. rewrite E. auto.
  - (* key *)
    assert (IN : In n (v_active w) -> False).
    { intros Hn. destruct (c n Hn) as (p & q & x & A & B & _). apply (r_node _ r) in A. congruence. }
    assert (STEP : forall m, In m (v_active w) -> m <> vi_node i -> exists p j x, v_info w1 p = Some j /\ vi_node j = m /\ v_stat w1 p = Some x /\ vs_disq x = false).
    { intros m Hm Hne. destruct (c m Hm) as (p & j & x & A & B & C & D). subst w1. vc.
      assert (p <> o) by (intros ->; congruence). exists p, j, x. unfold aupd. apply ane in H5. rewrite H5. auto. }
    destruct H6 as [(N & ->) | [(_ & X & _) | (act & j & A & B & C & ->)]]; [| contradiction (IN X) |].
    + intros m Hm. apply STEP; [subst w1; exact Hm | intros ->; apply N; subst w1; exact Hm].
    + destruct (set_at_some _ _ _ _ _ nd A B C) as (_ & E & _). intros m Hm. vc. apply E in Hm as [-> | (Hm & Hne)]; [|auto].
      subst w1. vc. exists o, (mkInfo n (vi_grade i) (vi_name i) (vi_url i)), s. unfold aupd. rewrite arefl. auto.
  - (* enable *)
    intros m Hm. vc. destruct (c m Hm) as (p & k & x & A & B & C & D). unfold aupd. destruct (addr_eqb p o) eqn:E.
    + apply aeq in E. subst p. destruct (enable_keeps _ _ _ H1 (r_stat w r o s H0)) as (_ & E2 & _). exists o, k, (reset_misses s'). rewrite arefl. auto.
    + exists p, k, x. rewrite E. auto.
  - discriminate.
  - destruct (take_out_some _ _ _ nd H0) as (_ & _ & E & _). intros m Hm. vc. apply E in Hm as (Hm & _). apply (c m Hm).
Qed.

(** ** Events tell what happens to the active set *)
Lemma nto_base ix votes w w' : vinv w -> base_effect ix votes w w' -> v_nto w' = v_nto w.
Proof. intros iv H. apply (base_fields _ _ _ _ iv H). Qed.
Lemma tells_base ix votes w w' : vinv w -> base_effect ix votes w w' -> exists evs, tells w w' evs.
Proof.
  intros iv (w1 & T & V).
  assert (A : exists evs, tells w w1 evs).
  { destruct T as [(_ & _ & T) | (_ & ->)]; [apply T | exists []; apply tells_none; auto]. }
  destruct V as [(_ & _ & pen & adds & V) | (_ & ->)]; [|auto]. destruct A as (e1 & A). destruct V as [_ v2 _ (e2 & v4) _ _ _].
  exists (e1 ++ e2). refine (tells_trans w w1 w' e1 e2 _ A v4). unfold but_votes in v2. tauto.
Qed.
Lemma tells_effect w op w' : vinv w -> is_set op = false -> effect w op w' -> exists evs, tells w w' evs.
Proof.
  intros iv g H. assert (nd := i_nodup w iv). assert (r := i_regs w iv). destruct H; try (exists []; apply tells_none; reflexivity).
  - eapply tells_base; eauto.
  - destruct H6 as [(N & ->) | (act & T & ->)]; [subst w1; exists []; apply tells_none; reflexivity|].
    destruct (take_out_some _ _ _ nd T) as (A & B & E & L).
    exists [EvRemoved o (vi_node i) WUnregistered; EvCount (Z.of_nat (List.length act) + 1) (Z.of_nat (List.length act))].
    split; [split; [|split]|].
    + subst w1. vc. rewrite <- app_assoc. reflexivity.
    + intros x. vc. cbn. rewrite E. tauto.
    + intros e [<- | [<- | []]]; cbn; [|auto]. subst w1. vc. eapply r_node; eauto.
    + vc. cbn. rewrite L. replace (Z.of_nat (List.length act) + 1 =? Z.of_nat (S (List.length act)))%Z with true by (symmetry; apply Z.eqb_eq; lia). auto.
  - destruct H6 as [(N & ->) | [(_ & _ & _ & ->) | (act & j & A & B & C & ->)]]; subst w1;
      try (exists []; apply tells_none; reflexivity).
    destruct (set_at_some _ _ _ _ _ nd A B C) as (_ & E & L & _).
    exists [EvRemoved o (vi_node i) WKeyChange; EvAdded o n]. split; [split; [|split]|].
    + vc. rewrite <- app_assoc. reflexivity.
    + intros x. vc. cbn. rewrite E. tauto.
    + intros e [<- | [<- | []]]; cbn; vc; unfold aupd.
      * destruct (addr_eqb (vi_node i) n); [auto | eapply r_node; eauto].
      * rewrite arefl. auto.
    + vc. cbn. rewrite L. auto.
  - discriminate.
  - discriminate.
Qed.

(** ** Who may change what *)
Lemma stat_votes w w1 votes : regs w -> forall pen, check_votes votes w = inr (pen, w1) -> forall o s, v_stat w o = Some s ->
  exists s', v_stat w1 o = Some s' /\ vs_disq s' = vs_disq s /\ vs_used s' = vs_used s.
Proof.
  revert w w1. induction votes as [|[n v] rest IH]; intros w w1 r pen H o s S0; cbn [check_votes] in H.
  - injection H as <- <-. eauto.
  - destruct (on_vote n v w) as [[[p q] w2]|] eqn:V; [|eapply IH; eauto].
    assert (r2 := on_vote_regs _ _ _ _ _ _ r V). apply on_vote_some in V as (N & i & t & A & B & V).
    assert (X : exists s2, v_stat w2 o = Some s2 /\ vs_disq s2 = vs_disq s /\ vs_used s2 = vs_used s).
    { destruct V as [(_ & _ & ->) | (E & _ & ->)]; [eauto|]. vc. unfold aupd. destruct (addr_eqb o q) eqn:Q; [|eauto].
      apply aeq in Q. subst q. rewrite B in S0. injection S0 as <-. eexists. split; [reflexivity|]. cbn. split; [|auto].
      unfold enabled in E. apply andb_true_iff in E as [_ E]. apply negb_true_iff in E. auto. }
    destruct X as (s2 & X1 & X2 & X3). destruct p.
    + unfold vbind in H. destruct (check_votes rest (w_log (EvPenalized q n) w2)) as [|[pen' w3]] eqn:C; [discriminate|].
      injection H as <- <-.
      destruct (IH (w_log (EvPenalized q n) w2) w3 (regs_same w2 (w_log (EvPenalized q n) w2) ltac:(repeat split) r2) _ C o s2 X1) as (s' & Y1 & Y2 & Y3).
      exists s'. split; [auto|]. split; congruence.
    + destruct (IH w2 w1 r2 _ H o s2 X1) as (s' & Y1 & Y2 & Y3). exists s'. split; [auto|]. split; congruence.
Qed.
Lemma stat_base ix votes w w' : vinv w -> base_effect ix votes w w' -> forall o s, v_stat w o = Some s ->
  exists s', v_stat w' o = Some s' /\ vs_disq s' = vs_disq s /\ vs_used s' = vs_used s.
Proof.
  intros iv (w1 & T & V) o s S0.
  assert (A : regs w1 /\ v_stat w1 = v_stat w).
  { destruct T as [(_ & _ & T) | (_ & ->)]; [|split; [apply iv | auto]]. split; [eapply regs_same; [apply T | apply iv] | apply T]. }
  destruct A as (r1 & E). destruct V as [(_ & _ & pen & adds & V) | (_ & ->)]; [|rewrite E; eauto].
  destruct V as [_ _ _ _ (w2 & C1 & C2 & _) _ _]. rewrite C2. eapply stat_votes; eauto. congruence.
Qed.

Lemma info_changes w op w' o : vinv w -> effect w op w' -> v_info w' o <> v_info w o ->
  match op with
  | ORegister from p _ _ _ _ _ => from = v_gov w /\ p = o /\ v_info w o = None
  | OSetInfo from _ | OSetKey from _ _ => from = o /\ v_info w o <> None
  | _ => False
  end.
Proof.
  intros iv H NE. destruct H; try (contradiction NE; reflexivity).
  - contradiction NE. destruct (base_fields _ _ _ _ iv H) as (_ & _ & _ & _ & X & _). rewrite X. reflexivity.
  - vc. unfold aupd in NE. destruct (addr_eqb o o0) eqn:E; [apply aeq in E; subst; auto | contradiction NE; auto].
  - contradiction NE. destruct H6 as [(N & ->) | (act & T & ->)]; subst w1; reflexivity.
  - vc. unfold aupd in NE. destruct (addr_eqb o o0) eqn:E; [apply aeq in E; subst; split; auto; congruence | contradiction NE; auto].
  - assert (X : v_info w2 = v_info w1) by (destruct H6 as [(N & ->) | [(_ & _ & _ & ->) | (act & j & A & B & C & ->)]]; reflexivity).
    vc. rewrite X, H5 in NE. vc. unfold aupd in NE.
    destruct (addr_eqb o o0) eqn:E; [apply aeq in E; subst; split; auto; congruence | contradiction NE; auto].
Qed.
Lemma grade_kept w op w' o i : vinv w -> effect w op w' -> v_info w o = Some i -> exists j, v_info w' o = Some j /\ vi_grade j = vi_grade i.
Proof.
  intros iv H I0. destruct H; try (exists i; split; [exact I0 | reflexivity]).
  - assert (X := base_fields _ _ _ _ iv H). destruct X as (_ & _ & _ & _ & X & _). rewrite X. eauto.
  - vc. unfold aupd. destruct (addr_eqb o o0) eqn:E; [apply aeq in E; congruence | eauto].
  - assert (X : v_info w' = v_info w) by (destruct H6 as [(N & ->) | (act & T & ->)]; subst w1; reflexivity). rewrite X. eauto.
  - vc. unfold aupd. destruct (addr_eqb o o0) eqn:E; [|eauto]. apply aeq in E. subst. exists j. split; [auto | congruence].
  - assert (X : v_info w2 = v_info w1) by (destruct H6 as [(N & ->) | [(_ & _ & _ & ->) | (act & j & A & B & C & ->)]]; reflexivity).
    vc. rewrite X, H5. vc. unfold aupd. destruct (addr_eqb o o0) eqn:E; [|eauto]. apply aeq in E. subst o0. eexists. split; [reflexivity|].
    cbn. congruence.
Qed.
Lemma nto_kept w op w' n o : vinv w -> effect w op w' -> v_nto w n = Some o -> v_nto w' n = Some o.
Proof.
  intros iv H N0. destruct H; try exact N0.
  - rewrite (nto_base _ _ _ _ iv H). auto.
  - vc. unfold aupd. destruct (addr_eqb n n0) eqn:E; [apply aeq in E; congruence | auto].
  - assert (X : v_nto w' = v_nto w) by (destruct H6 as [(N & ->) | (act & T & ->)]; subst w1; reflexivity). rewrite X. auto.
  - assert (X : v_nto w2 = v_nto w1) by (destruct H6 as [(N & ->) | [(_ & _ & _ & ->) | (act & j & A & B & C & ->)]]; reflexivity).
    vc. rewrite X, H5. vc. unfold aupd. destruct (addr_eqb n n0) eqn:E; [apply aeq in E; congruence | auto].
Qed.
Lemma stat_changes w op w' o s : vinv w -> effect w op w' -> v_stat w o = Some s ->
  exists s', v_stat w' o = Some s' /\ (vs_disq s = true -> vs_disq s' = true) /\
    (vs_disq s' <> vs_disq s -> exists from, op = OUnregister from o /\ (from = v_gov w \/ from = o)) /\
    (vs_used s' <> vs_used s -> exists from, op = OEnable from o /\ vs_disabled s = true /\ vs_disabled s' = false /\
        ((from = v_gov w /\ vs_used s' = 0%Z) \/ (from <> v_gov w /\ from = o /\ vs_used s' = vs_used s + 1 /\ vs_used s < 3)%Z)) /\
    (vs_disabled s = true -> vs_disabled s' = false -> exists from, op = OEnable from o /\ (from = v_gov w \/ (from = o /\ vs_used s' = (vs_used s + 1)%Z))).
Proof.
  intros iv H S0.
  assert (SAME : forall w', v_stat w' o = Some s -> exists s', v_stat w' o = Some s' /\ (vs_disq s = true -> vs_disq s' = true) /\
    (vs_disq s' <> vs_disq s -> exists from, op = OUnregister from o /\ (from = v_gov w \/ from = o)) /\
    (vs_used s' <> vs_used s -> exists from, op = OEnable from o /\ vs_disabled s = true /\ vs_disabled s' = false /\
        ((from = v_gov w /\ vs_used s' = 0%Z) \/ (from <> v_gov w /\ from = o /\ vs_used s' = vs_used s + 1 /\ vs_used s < 3)%Z)) /\
    (vs_disabled s = true -> vs_disabled s' = false -> exists from, op = OEnable from o /\ (from = v_gov w \/ (from = o /\ vs_used s' = (vs_used s + 1)%Z)))).
  { intros x X. exists s. split; [auto|]. split; [auto|]. split; [congruence|]. split; [congruence|]. congruence. }
  destruct H; try (apply SAME; exact S0).
  - clear SAME. destruct (stat_base _ _ _ _ iv H o s S0) as (s' & A & B & C). exists s'. split; [auto|].
    split; [congruence|]. split; [congruence|]. split; [congruence|].
    intros D E. exfalso. destruct H as (w1 & T & V).
    assert (X : regs w1 /\ v_stat w1 = v_stat w).
    { destruct T as [(_ & _ & T) | (_ & ->)]; [|split; [apply iv | auto]]. split; [eapply regs_same; [apply T | apply iv] | apply T]. }
    destruct X as (r1 & X). destruct V as [(_ & _ & pen & adds & V) | (_ & ->)]; [|rewrite X in A; congruence].
    destruct V as [_ _ _ _ (w2 & C1 & C2 & _) _ _]. destruct (check_votes_run votes w1 r1) as (pen' & w2' & Y1 & _ & _ & _ & _ & _ & Y7 & _).
    rewrite C1 in Y1. injection Y1 as <- <-. destruct (Y7 o) as (t & Z1 & Z2); [exists s; split; [congruence | auto]|]. congruence.
  - apply SAME. vc. unfold aupd. destruct (addr_eqb o o0) eqn:E; [|auto]. apply aeq in E. subst o0. apply (r_both _ (i_regs w iv)) in H0. congruence.
  - clear SAME. assert (X : v_stat w' = v_stat w1) by (destruct H6 as [(N & ->) | (act & T & ->)]; subst w1; reflexivity). rewrite X, H5. vc. unfold aupd.
    destruct (addr_eqb o o0) eqn:E.
    + apply aeq in E. subst o0. rewrite S0 in H1. injection H1 as <-. eexists. split; [reflexivity|]. cbn. split; [auto|].
      split; [eauto|]. split; congruence.
    + exists s. split; [auto|]. split; [auto|]. split; [congruence|]. split; congruence.
  - apply SAME. assert (X : v_stat w2 = v_stat w1) by (destruct H6 as [(N & ->) | [(_ & _ & _ & ->) | (act & j & A & B & C & ->)]]; reflexivity).
    vc. rewrite X, H5. auto.
  - clear SAME. vc. unfold aupd. destruct (addr_eqb o o0) eqn:E.
    + apply aeq in E. subst o0. rewrite S0 in H0. injection H0 as <-. exists (reset_misses s'). split; [auto|].
      unfold enable in H1. destruct (vs_disq s) eqn:D; [discriminate|]. cbn. split; [discriminate|].
      unfold enabled in H1. rewrite D, andb_true_r in H1. destruct (vs_disabled s) eqn:DD; cbn in H1.
      * destruct (addr_eqb from (v_gov w)) eqn:G.
        -- apply aeq in G. injection H1 as <-. cbn. split; [congruence|]. split; intros; eexists; (split; [reflexivity|]); auto 10.
        -- apply ane in G. destruct (MaxEnableCount <=? vs_used s)%Z eqn:M; [discriminate|]. apply Z.leb_gt in M. unfold MaxEnableCount in M. injection H1 as <-. cbn.
           split; [congruence|]. destruct H as [H|H]; [contradiction|]. split; intros; eexists; (split; [reflexivity|]); auto 10.
      * injection H1 as <-. rewrite D. split; [congruence|]. split; congruence.
    + exists s. split; [auto|]. split; [auto|]. split; [congruence|]. split; congruence.
Qed.
End More.
