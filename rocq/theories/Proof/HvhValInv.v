(** The validator registry stays consistent. *)
From Verif Require Import Model.HvhState Model.HvhValidator Spec.HvhValSpec Proof.HvhValFacts Proof.HvhValTurn.
From Coq Require Import ZArith List Bool Arith Lia Permutation String.
Import ListNotations.
Open Scope nat_scope.

Ltac vc := cbn [v_rev v_gov v_info v_stat v_nto v_main v_sub v_gone v_index v_count v_period v_allow v_net v_active v_keyed v_log
                w_rev w_info w_stat w_nto w_list w_gone w_index w_count w_vote w_net w_active w_keyed w_log] in *.

Definition live (w : vworld) (o : addr) (g : grade) : Prop :=
  exists i s, v_info w o = Some i /\ vi_grade i = g /\ v_stat w o = Some s /\ vs_disq s = false.
Record regs (w : vworld) : Prop := mkRegs {
  r_both : forall o, v_info w o = None <-> v_stat w o = None;
  r_main : forall o, In o (v_main w) <-> live w o Main;
  r_sub : forall o, In o (v_sub w) <-> live w o Sub;
  r_gone : forall o, In o (v_gone w) <-> disqualified w o;
  r_nd : NoDup (v_main w) /\ NoDup (v_sub w) /\ NoDup (v_gone w);
  r_node : forall o i, v_info w o = Some i -> v_nto w (vi_node i) = Some o;
  r_nto : forall n o, v_nto w n = Some o -> v_info w o <> None;
  r_stat : forall o s, v_stat w o = Some s -> (0 <= vs_misses s /\ 0 <= vs_used s <= 3)%Z;
  r_on : forall o i s, v_info w o = Some i -> vi_grade i = Main -> v_stat w o = Some s -> vs_disabled s = false }.

Definition same_regs (w w' : vworld) : Prop :=
  v_info w' = v_info w /\ v_stat w' = v_stat w /\ v_nto w' = v_nto w /\
  v_main w' = v_main w /\ v_sub w' = v_sub w /\ v_gone w' = v_gone w.
Lemma regs_same w w' : same_regs w w' -> regs w -> regs w'.
Proof.
  intros (A & B & C & D & E & F) [r1 r2 r3 r4 r5 r6 r7 r8 r9].
  constructor; unfold live, disqualified in *; rewrite ?A, ?B, ?C, ?D, ?E, ?F; auto.
Qed.
Lemma same_refl w : same_regs w w.
Proof. repeat split. Qed.
Lemma same_trans a b c : same_regs a b -> same_regs b c -> same_regs a c.
Proof. unfold same_regs. intuition congruence. Qed.

Lemma regs_known w : regs w -> all_known w.
Proof.
  intros r o [H|H]; [apply (r_main _ r) in H | apply (r_sub _ r) in H]; destruct H as (i & s & A & _ & B & _); split; congruence.
Qed.
Lemma node_owner w o n : regs w -> node w o = Some n -> v_nto w n = Some o.
Proof. intros r H. unfold node in H. destruct (v_info w o) as [i|] eqn:E; [|discriminate]. injection H as <-. eapply r_node; eauto. Qed.
Lemma node_inj w o p n : regs w -> node w o = Some n -> node w p = Some n -> o = p.
Proof. intros r A B. apply (node_owner w _ _ r) in A. apply (node_owner w _ _ r) in B. congruence. Qed.

Lemma regs_stat w o s s' : regs w -> v_stat w o = Some s -> vs_disq s' = vs_disq s ->
  (0 <= vs_misses s' /\ 0 <= vs_used s' <= 3)%Z ->
  (forall i, v_info w o = Some i -> vi_grade i = Main -> vs_disabled s' = false) -> regs (w_stat o s' w).
Proof.
  intros [r1 r2 r3 r4 r5 r6 r7 r8 r9] S0 D B M.
  assert (L : forall p g, live (w_stat o s' w) p g <-> live w p g).
  { intros p g. unfold live. vc. unfold aupd. destruct (addr_eqb p o) eqn:E; [|tauto]. apply aeq in E. subst p. split.
    - intros (i & x & H1 & H2 & H3 & H4). injection H3 as <-. exists i, s. rewrite <- D. auto.
    - intros (i & x & H1 & H2 & H3 & H4). exists i, s'. rewrite S0 in H3. injection H3 as <-. rewrite D. auto. }
  constructor; auto.
  - intros p. vc. unfold aupd. destruct (addr_eqb p o) eqn:E; [|auto]. apply aeq in E. subst p. rewrite r1, S0. split; discriminate.
  - intros p. rewrite L. vc. auto.
  - intros p. rewrite L. vc. auto.
  - intros p. vc. rewrite r4. unfold disqualified. vc. unfold aupd. destruct (addr_eqb p o) eqn:E; [|tauto]. apply aeq in E. subst p. split.
    + intros (x & H1 & H2). exists s'. rewrite S0 in H1. injection H1 as <-. split; congruence.
    + intros (x & H1 & H2). injection H1 as <-. exists s. split; congruence.
  - intros p x. vc. unfold aupd. destruct (addr_eqb p o); [|apply r8]. intros H. injection H as <-. auto.
  - intros p i x. vc. unfold aupd. destruct (addr_eqb p o) eqn:E; [|apply r9]. apply aeq in E. subst p. intros A G H. injection H as <-. eauto.
Qed.

(** ** Votes *)
Lemma on_vote_some w n v p o w' : on_vote n v w = Some (p, o, w') ->
  v_nto w n = Some o /\
  exists i s, v_info w o = Some i /\ v_stat w o = Some s /\
    ((enabled s = false /\ p = false /\ w' = w) \/
     (enabled s = true /\
      p = match vi_grade i with Main => false | Sub => (ns_allow (v_net w) <? (if v then 0 else vs_misses s + 1))%Z end /\
      w' = w_stat o (mkStat p false (if v then 0 else vs_misses s + 1)%Z (vs_used s)) w)).
Proof.
  unfold on_vote. destruct (v_nto w n) as [q|] eqn:N; [|discriminate]. destruct (v_info w q) as [i|] eqn:I0; [|discriminate].
  destruct (v_stat w q) as [s|] eqn:S0; [|discriminate]. destruct (enabled s) eqn:E.
  - intros H. injection H as P Q R. subst q. split; [auto|]. exists i, s. split; [auto|]. split; [auto|]. right.
    split; [auto|]. unfold enabled in E. apply andb_true_iff in E as [E1 E2]. apply negb_true_iff in E1, E2. rewrite E1, E2 in R.
    cbn [orb] in R. split; [congruence|]. rewrite <- R, P. reflexivity.
  - intros H. injection H as P Q R. subst. split; [auto|]. exists i, s. split; [auto|]. split; [auto|]. left. auto.
Qed.
Lemma on_vote_regs w n v p o w' : regs w -> on_vote n v w = Some (p, o, w') -> regs w'.
Proof.
  intros r H. apply on_vote_some in H as (N & i & s & A & B & [(E & -> & ->) | (E & P & ->)]); [auto|].
  apply (regs_stat w o s); auto; cbn.
  - unfold enabled in E. apply andb_true_iff in E as [_ E]. apply negb_true_iff in E. auto.
  - pose proof (r_stat _ r o s B). destruct v; lia.
  - intros j A' G. rewrite A in A'. injection A' as <-. rewrite G in P. auto.
Qed.
(** What checking votes may change *)
Definition but_stat (w w' : vworld) : Prop :=
  v_rev w' = v_rev w /\ v_gov w' = v_gov w /\ v_info w' = v_info w /\ v_nto w' = v_nto w /\ v_main w' = v_main w /\
  v_sub w' = v_sub w /\ v_gone w' = v_gone w /\ v_index w' = v_index w /\ v_count w' = v_count w /\ v_period w' = v_period w /\
  v_allow w' = v_allow w /\ v_net w' = v_net w /\ v_active w' = v_active w /\ v_keyed w' = v_keyed w.
Lemma on_vote_but w n v p o w' : on_vote n v w = Some (p, o, w') -> but_stat w w'.
Proof. intros H. apply on_vote_some in H as (_ & i & s & _ & _ & [(_ & _ & ->) | (_ & _ & ->)]); repeat split. Qed.
Lemma but_trans a b c : but_stat a b -> but_stat b c -> but_stat a c.
Proof. unfold but_stat. intuition congruence. Qed.

(** The penalized validators: each was enabled, owns its node and is disabled now. *)
Lemma check_votes_run votes : forall w, regs w ->
  exists pen w', check_votes votes w = inr (pen, w') /\ regs w' /\ but_stat w w' /\
    v_log w' = v_log w ++ map (fun p => EvPenalized (fst p) (snd p)) pen /\
    NoDup (map fst pen) /\
    (forall o n, In (o, n) pen -> v_nto w n = Some o /\ ~ disabled w o /\ disabled w' o /\ has_grade w o Sub /\ In n (map fst votes)) /\
    (forall o, disabled w o -> disabled w' o) /\
    (forall o, disabled w' o -> disabled w o \/ exists n, In (o, n) pen).
Proof.
  induction votes as [|[n v] r IH]; intros w rg; cbn [check_votes].
  - exists [], w. split; [reflexivity|]. rewrite app_nil_r. split; [auto|]. split; [repeat split|]. split; [auto|]. split; [constructor|].
    split; [intros o n []|]. split; auto.
  - destruct (on_vote n v w) as [[[p o] w1]|] eqn:V.
    + pose proof (on_vote_regs _ _ _ _ _ _ rg V) as rg1. pose proof (on_vote_but _ _ _ _ _ _ V) as b1.
      apply on_vote_some in V as (N & i & s & A & B & V).
      assert (LG : v_log w1 = v_log w) by (destruct V as [(_ & _ & ->) | (_ & _ & ->)]; reflexivity).
      assert (KEEP : forall q, disabled w q -> disabled w1 q).
      { destruct V as [(_ & _ & ->) | (E & _ & ->)]; [auto|]. intros q (x & H1 & H2). unfold disabled. vc. unfold aupd.
        destruct (addr_eqb q o) eqn:Q; [|eauto]. apply aeq in Q. subst q. rewrite B in H1. injection H1 as <-.
        unfold enabled in E. rewrite H2 in E. discriminate. }
      assert (NEW : forall q, disabled w1 q -> disabled w q \/ (q = o /\ p = true)).
      { destruct V as [(_ & _ & ->) | (E & _ & ->)]; [auto|]. intros q (x & H1 & H2). revert H1. vc. unfold aupd.
        destruct (addr_eqb q o) eqn:Q; [|intros; left; exists x; auto]. apply aeq in Q. intros H1. injection H1 as <-. cbn in H2. auto. }
      destruct p.
      * destruct V as [(_ & F & _) | (E & P & W1)]; [discriminate|].
        assert (GS : has_grade w o Sub) by (exists i; split; [auto|]; destruct (vi_grade i); [auto | discriminate]).
        assert (D0 : ~ disabled w o).
        { intros (x & H1 & H2). rewrite B in H1. injection H1 as <-. unfold enabled in E. rewrite H2 in E. discriminate. }
        assert (D1 : disabled w1 o) by (exists (mkStat true false (if v then 0 else vs_misses s + 1)%Z (vs_used s)); rewrite W1; vc; rewrite aupd_same; auto).
        destruct (IH (w_log (EvPenalized o n) w1)) as (pen & w' & C1 & C2 & C3 & C4 & C5 & C6 & C7 & C8).
        { eapply regs_same; [|exact rg1]. repeat split. }
        exists ((o, n) :: pen), w'. unfold vbind. rewrite C1. cbn [vret]. split; [reflexivity|]. split; [auto|].
        assert (b2 : but_stat w1 w') by (unfold but_stat in *; vc; intuition congruence).
        split; [eapply but_trans; eauto|].
        split; [rewrite C4; vc; rewrite LG, <- app_assoc; reflexivity|].
        assert (DL : forall q, disabled (w_log (EvPenalized o n) w1) q <-> disabled w1 q) by (intros; unfold disabled; vc; tauto).
        split.
        { cbn. constructor; [|auto]. intros H. apply in_map_iff in H as ((o' & n') & Q & H). cbn in Q. subst o'.
          destruct (C6 _ _ H) as (_ & ND & _). apply ND. rewrite DL. auto. }
        split.
        { intros o' n' [Q | H].
          - injection Q as <- <-. split; [auto|]. split; [auto|]. split; [apply C7; rewrite DL; auto|]. split; [auto | left; auto].
          - destruct (C6 _ _ H) as (H1 & H2 & H3 & (j & H4 & H5) & H6). destruct b1 as (_ & _ & b3 & b4 & _). vc. rewrite b4 in H1.
            split; [auto|]. split; [intros X; apply H2; rewrite DL; auto|]. split; [auto|]. split; [exists j; split; [congruence | auto] | right; auto]. }
        split; [intros q Hq; apply C7; rewrite DL; auto|].
        intros q Hq. destruct (C8 q Hq) as [H | (m & H)]; [|right; exists m; right; auto]. rewrite DL in H.
        destruct (NEW q H) as [H' | [-> _]]; [auto | right; exists n; left; auto].
      * destruct (IH w1 rg1) as (pen & w' & C1 & C2 & C3 & C4 & C5 & C6 & C7 & C8).
        exists pen, w'. split; [auto|]. split; [auto|]. split; [eapply but_trans; eauto|]. split; [congruence|]. split; [auto|]. split.
        { intros o' n' H. destruct (C6 _ _ H) as (H1 & H2 & H3 & (j & H4 & H5) & H6). destruct b1 as (_ & _ & b3 & b4 & _). rewrite b4 in H1.
          split; [auto|]. split; [intros X; apply H2; auto|]. split; [auto|]. split; [exists j; split; [congruence | auto] | right; auto]. }
        split; [auto|]. intros q Hq. destruct (C8 q Hq) as [H | H]; [|auto]. destruct (NEW q H) as [H' | [_ F]]; [auto | discriminate].
    + destruct (IH w rg) as (pen & w' & C1 & C2 & C3 & C4 & C5 & C6 & C7 & C8). exists pen, w'.
      split; [auto|]. split; [auto|]. split; [auto|]. split; [auto|]. split; [auto|]. split; [|auto].
      intros o' n' H. destruct (C6 _ _ H) as (H1 & H2 & H3 & H4 & H5). cbn. auto 10.
Qed.
