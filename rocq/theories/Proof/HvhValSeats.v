(** Changing the active set. *)
From Verif Require Import Model.HvhState Model.HvhValidator Spec.HvhValSpec Proof.HvhValFacts Proof.HvhValTurn Proof.HvhValInv.
From Coq Require Import ZArith List Bool Arith Lia Permutation.
Import ListNotations.
Open Scope nat_scope.

(** ** Events *)
Lemma replay_ext evs : forall P Q, (forall x, P x <-> Q x) -> forall x, replay evs P x <-> replay evs Q x.
Proof.
  induction evs as [|e r IH]; intros P Q H x; cbn; [auto|]. destruct e; auto; apply IH; intros y; rewrite H; tauto.
Qed.
Lemma replay_app a b P : replay (a ++ b) P = replay b (replay a P).
Proof. revert P. induction a as [|e r IH]; intros P; cbn; [auto|]. destruct e; auto. Qed.
Lemma recount_app a b c : recount (a ++ b) c = match recount a c with Some d => recount b d | None => None end.
Proof. revert c. induction a as [|e r IH]; intros c; cbn; [auto|]. destruct e; auto. destruct (Z.eqb old c); auto. Qed.

(** [tells]: the events logged since [w] lead from its active set to that of [w'], counts included, and name owners. *)
Definition names_owners (w : vworld) (evs : list vevent) : Prop :=
  forall e, In e evs -> match e with EvRemoved o n _ | EvAdded o n | EvPenalized o n => v_nto w n = Some o | _ => True end.
Definition tells_set (w w' : vworld) (evs : list vevent) : Prop :=
  v_log w' = v_log w ++ evs /\ (forall x, In x (v_active w') <-> replay evs (fun y => In y (v_active w)) x) /\ names_owners w' evs.
Definition no_counts (evs : list vevent) : Prop := forall e, In e evs -> match e with EvCount _ _ => False | _ => True end.
Lemma recount_none evs c : no_counts evs -> recount evs c = Some c.
Proof.
  intros H. induction evs as [|e r IH]; [auto|]. assert (IHr : recount r c = Some c) by (apply IH; intros x Hx; apply H; right; auto).
  specialize (H e (or_introl eq_refl)). destruct e; auto. contradiction.
Qed.

Definition but_act (w w' : vworld) : Prop :=
  v_rev w' = v_rev w /\ v_gov w' = v_gov w /\ same_regs w w' /\ v_count w' = v_count w /\ v_period w' = v_period w /\
  v_allow w' = v_allow w /\ v_net w' = v_net w /\ v_keyed w' = v_keyed w.
Lemma but_act_trans a b c : but_act a b -> but_act b c -> but_act a c.
Proof.
  intros (A1 & A2 & A3 & A4 & A5 & A6 & A7 & A8) (B1 & B2 & B3 & B4 & B5 & B6 & B7 & B8).
  repeat split; try congruence; unfold same_regs in *; intuition congruence.
Qed.
Lemma but_act_log w e : but_act w (w_log e w).
Proof. repeat split. Qed.
Lemma but_act_active w l : but_act w (w_active l w).
Proof. repeat split. Qed.

(** ** Seats *)
Lemma seats_in pen act i o n : In (i, (o, n)) (seats pen act) <-> In (o, n) pen /\ index_of n act = Some i.
Proof.
  induction pen as [|[o' n'] r IH]; cbn [seats]; [cbn; tauto|]. destruct (index_of n' act) as [j|] eqn:E; cbn [In]; rewrite IH; split.
  - intros [H | [H1 H2]]; [injection H as -> -> ->; auto | auto].
  - intros [[H | H] H2]; [injection H as -> ->; left; congruence | auto].
  - intros [H1 H2]. auto.
  - intros [[H | H] H2]; [injection H as -> ->; congruence | auto].
Qed.
Lemma seats_nodup pen act : NoDup (map snd pen) -> NoDup (map fst (seats pen act)).
Proof.
  induction pen as [|[o n] r IH]; intros nd; cbn [seats]; [constructor|]. cbn in nd. inversion nd as [|x y nn nr]. subst.
  destruct (index_of n act) as [i|] eqn:E; [|auto]. cbn. constructor; [|auto].
  rewrite in_map_iff. intros ((j & (o' & n')) & Q & H). cbn in Q. subst j. apply seats_in in H as [H1 H2].
  apply nn. apply in_map_iff. exists (o', n'). split; [|auto]. cbn. apply index_some in E. apply index_some in H2. congruence.
Qed.

Definition out_of (x : addr) (ss : list seat) : Prop := exists i o, In (i, (o, x)) ss.
(** Only removals remain *)
Lemma unseat_run ss : forall w, NoDup (v_active w) -> (forall i o n, In (i, (o, n)) ss -> v_nto w n = Some o) ->
  exists evs w', reseat ss [] w = inr (tt, w') /\ but_act w w' /\ v_index w' = v_index w /\ NoDup (v_active w') /\
    (forall x, In x (v_active w') <-> In x (v_active w) /\ ~ out_of x ss) /\ tells_set w w' evs /\ no_counts evs.
Proof.
  induction ss as [|[i [o n]] r IH]; intros w nd ow.
  - exists [], w. split; [reflexivity|]. split; [repeat split|]. split; [auto|]. split; [auto|]. split.
    + intros x. split; [intros H; split; [auto|]; intros (? & ? & []) | tauto].
    + split; [split; [symmetry; apply app_nil_r|]; split; [cbn; tauto | intros e []] | intros e []].
  - cbn [reseat]. unfold vbind, vput. set (w1 := w_log (EvRemoved o n WPenalized) w).
    set (w2 := match take_out n (v_active w1) with Some l => w_active l w1 | None => w1 end).
    assert (P : but_act w w2 /\ v_index w2 = v_index w /\ NoDup (v_active w2) /\ (forall x, In x (v_active w2) <-> In x (v_active w) /\ x <> n) /\
                v_log w2 = v_log w ++ [EvRemoved o n WPenalized]).
    { unfold w2. change (v_active w1) with (v_active w). destruct (take_out n (v_active w)) as [l|] eqn:T.
      - destruct (take_out_some _ _ _ nd T) as (_ & A & B & _). vc. split; [repeat split|]. split; [auto|]. split; [auto|]. split; auto.
      - apply take_out_none in T. vc. split; [repeat split|]. split; [auto|]. split; [auto|]. split; [|auto].
        intros x. split; [intros H; split; [auto | intros ->; contradiction] | tauto]. }
    destruct P as (P1 & P2 & P3 & P4 & P5).
    assert (NT : v_nto w2 = v_nto w) by apply P1.
    destruct (IH w2 P3) as (evs & w' & A & B & C & D & E & F & G).
    { intros j q m H. rewrite NT. eapply ow. right. eauto. }
    exists (EvRemoved o n WPenalized :: evs), w'. split; [exact A|]. split; [eapply but_act_trans; eauto|]. split; [congruence|].
    split; [auto|]. destruct F as (F1 & F2 & F3). split; [|split; [split; [|split]|]].
    + intros x. rewrite E, P4. unfold out_of. split.
      * intros [[H1 H2] H3]. split; [auto|]. intros (j & q & [Q | Q]); [congruence | apply H3; eauto].
      * intros [H1 H2]. split; [split; [auto|]|].
        -- intros ->. apply H2. exists i, o. left. auto.
        -- intros (j & q & Q). apply H2. exists j, q. right. auto.
    + rewrite F1, P5, <- app_assoc. reflexivity.
    + intros x. rewrite F2. cbn. apply replay_ext. intros y. rewrite P4. tauto.
    + intros e [<- | He]; [|apply F3; auto]. assert (Q : v_nto w' = v_nto w2) by apply B. rewrite Q, NT. eapply ow. left. eauto.
    + intros e [<- | He]; [auto | apply G; auto].
Qed.

Lemma reseat_run ss : forall adds w, NoDup (v_active w) ->
  (forall i o n, In (i, (o, n)) ss -> nth_error (v_active w) i = Some n /\ v_nto w n = Some o) -> NoDup (map fst ss) ->
  NoDup adds -> (forall a, In a adds -> ~ In a (v_active w) /\ v_nto w a <> None) -> length adds <= length ss ->
  exists evs w', reseat ss adds w = inr (tt, w') /\ but_act w w' /\ v_index w' = v_index w /\ NoDup (v_active w') /\
    (forall x, In x (v_active w') <-> In x adds \/ (In x (v_active w) /\ ~ out_of x ss)) /\ tells_set w w' evs /\ no_counts evs.
Proof.
  induction ss as [|[i [o n]] r IH]; intros adds w nd ow ns na ok le.
  - destruct adds; [|cbn in le; lia]. destruct (unseat_run [] w nd) as (evs & w' & A & B & C & D & E & F); [intros ? ? ? []|].
    exists evs, w'. do 4 (split; [auto|]). split; [|auto]. intros x. rewrite E. cbn. tauto.
  - destruct adds as [|a adds].
    { destruct (unseat_run ((i, (o, n)) :: r) w nd) as (evs & w' & A & B & C & D & E & F); [intros; eapply ow; eauto|].
      exists evs, w'. do 4 (split; [auto|]). split; [|auto]. intros x. rewrite E. cbn. tauto. }
    cbn [reseat]. unfold vbind, vput, owner_of, vget. vc.
    destruct (ow i o n (or_introl eq_refl)) as [N1 N2]. destruct (ok a (or_introl eq_refl)) as [A1 A2].
    inversion na as [|x y an ad]. subst. cbn in ns. inversion ns as [|x y ni nr]. subst.
    destruct (v_nto w a) as [q|] eqn:Q; [|contradiction].
    destruct (set_at_ok i a (v_active w) n N1 A1) as (l & SA). change (v_active (w_log (EvRemoved o n WPenalized) w)) with (v_active w).
    rewrite SA. destruct (set_at_some i a (v_active w) n l nd N1 A1 SA) as (D1 & D2 & D3 & D4).
    set (w1 := w_log (EvAdded q a) (w_active l (w_log (EvRemoved o n WPenalized) w))).
    assert (NN : forall j p m, In (j, (p, m)) r -> nth_error l j = Some m /\ m <> n).
    { intros j p m H. destruct (ow j p m (or_intror H)) as [H1 _]. assert (j <> i).
      { intros ->. apply ni. apply in_map_iff. exists (i, (p, m)). auto. }
      rewrite D4 by auto. split; [auto|]. intros ->. apply H0. 
      apply (proj1 (NoDup_nth_error (v_active w)) nd); [apply nth_error_Some; congruence | congruence]. }
    destruct (IH adds w1) as (evs & w' & A & B & C & D & E & F & G); auto.
    { intros j p m H. destruct (NN j p m H) as [H1 H2]. split; [exact H1|]. apply (ow j p m). right. auto. }
    { intros b Hb. destruct (ok b (or_intror Hb)) as [B1 B2]. split; [|exact B2]. change (v_active w1) with l. rewrite D2.
      intros [-> | [H _]]; contradiction. }
    { cbn in le. lia. }
    exists ([EvRemoved o n WPenalized; EvAdded q a] ++ evs), w'. split; [exact A|]. split; [eapply but_act_trans; [|exact B]; repeat split|].
    split; [rewrite C; reflexivity|]. split; [auto|].
    destruct F as (F1 & F2 & F3). split; [|split; [split; [|split]|]].
    + intros x. rewrite E. change (v_active w1) with l. rewrite D2. unfold out_of. cbn [In]. split.
      * intros [H | [[-> | [H1 H2]] H3]]; [auto | auto |]. right. split; [auto|]. intros (j & p & [K | K]); [congruence|]. apply H3. eauto.
      * intros [[-> | H] | [H1 H2]]; [|auto|].
        -- right. split; [auto|]. intros (j & p & K). destruct (NN _ _ _ K) as [K1 K2].
           destruct (ow j p x (or_intror K)) as [K3 _]. apply nth_error_In in K3. contradiction.
        -- right. split; [right; split; [auto|]|].
           ++ intros ->. apply H2. exists i, o. auto.
           ++ intros (j & p & K). apply H2. eauto.
    + rewrite F1. unfold w1. vc. rewrite <- !app_assoc. reflexivity.
    + intros x. rewrite F2. cbn. apply replay_ext. intros y. change (v_active w1) with l. rewrite D2. tauto.
    + assert (QQ : v_nto w' = v_nto w) by (destruct B as (_ & _ & (_ & _ & B & _) & _); rewrite B; reflexivity).
      intros e [<- | [<- | He]]; [rewrite QQ; auto | rewrite QQ; auto | apply F3; auto].
    + intros e [<- | [<- | He]]; [auto | auto | apply G; auto].
Qed.
