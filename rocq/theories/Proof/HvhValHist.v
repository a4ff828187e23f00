(** Invariants over histories. *)
From Verif Require Import Model.HvhState Model.HvhValidator Spec.HvhValSpec Proof.HvhValFacts Proof.HvhValTurn Proof.HvhValInv
  Proof.HvhValSeats Proof.HvhValBase Proof.HvhValVotes.
From Coq Require Import ZArith List Bool Arith Lia Permutation String.
Import ListNotations.
Open Scope nat_scope.

Ltac flat H := unfold since, check_gov, get_info, get_status, owner_of, add_node in H; unfold vwhen in H; unfold vbind, vget, vput, vret, vfail in H; cbv beta iota in H.
Ltac step H := match type of H with
  | context [if ?b then _ else _] => let E := fresh "C" in destruct b eqn:E
  | context [match ?x with _ => _ end] => let E := fresh "M" in destruct x eqn:E
  end; try discriminate H.
Ltac done_ H := repeat match type of H with inr (tt, ?a) = inr (tt, _) => injection H as <- | inr (_, ?a) = inr (_, _) => injection H as <- end.

(** ** The registry calls, inverted *)
Lemma register_inv o n g name url w w' : register o n g name url w = inr (tt, w') ->
  v_info w o = None /\ v_stat w o = None /\ v_nto w n = None /\
  w' = w_list g (vlist g w ++ [o]) (w_nto n o (w_stat o new_status (w_info o (mkInfo n g name url) w))).
Proof.
  unfold register. intros H. flat H. destruct (v_info w o) eqn:A; [discriminate|]. vc. destruct (v_stat w o) eqn:B; [discriminate|].
  vc. destruct (v_nto w n) eqn:C; [discriminate|]. injection H as <-. repeat split; auto.
Qed.
Lemma unregister_inv o w r w' : unregister o w = inr (r, w') ->
  a_contract o = false /\ exists s, v_stat w o = Some s /\
  ((vs_disq s = true /\ r = None /\ w' = w) \/
   (vs_disq s = false /\ exists i l, v_info w o = Some i /\ pop_swap o (vlist (vi_grade i) w) = Some l /\ r = Some (vi_node i) /\
    w' = w_gone (v_gone w ++ [o]) (w_list (vi_grade i) l (w_stat o (mkStat (vs_disabled s) true (vs_misses s) (vs_used s)) w)))).
Proof.
  unfold unregister. intros H. flat H. destruct (a_contract o); [discriminate|]. cbv beta iota in H. destruct (v_stat w o) as [s|] eqn:S0; [|discriminate].
  split; [auto|]. exists s. split; [auto|]. destruct (vs_disq s) eqn:D.
  - injection H as <- <-. auto.
  - right. split; [auto|]. vc. destruct (v_info w o) as [i|] eqn:I0; [|discriminate].
    assert (VL : forall s', vlist (vi_grade i) (w_stat o s' w) = vlist (vi_grade i) w) by (intros; destruct (vi_grade i); reflexivity).
    unfold vlist in H, VL. vc. unfold vlist.
    destruct (pop_swap o (match vi_grade i with Main => v_main w | Sub => v_sub w end)) as [l|] eqn:P; [|discriminate].
    injection H as <- <-. exists i, l. repeat split; auto.
Qed.
Lemma set_node_inv o new w p w' : set_node o new w = inr (p, w') ->
  exists i s, v_info w o = Some i /\ v_stat w o = Some s /\ vs_disq s = false /\ p = (vi_node i, new) /\
  ((vi_node i = new /\ w' = w) \/
   (vi_node i <> new /\ v_nto w new = None /\ w' = w_info o (mkInfo new (vi_grade i) (vi_name i) (vi_url i)) (w_nto new o w))).
Proof.
  unfold set_node. intros H. flat H. destruct (v_info w o) as [i|] eqn:I0; [|discriminate].
  destruct (v_stat w o) as [s|] eqn:S0; [|discriminate]. cbv beta iota in H. destruct (vs_disq s) eqn:D; [discriminate|]. cbv beta iota in H. exists i, s. do 3 (split; [auto|]). destruct (addr_eqb (vi_node i) new) eqn:E.
  - injection H as <- <-. apply aeq in E. subst new. auto.
  - apply ane in E. destruct (v_nto w new) eqn:N; [discriminate|]. injection H as <- <-. split; [auto|]. right. auto.
Qed.
Lemma enable_inv o gov w w' : enable_validator o gov w = inr (tt, w') ->
  exists s s', v_stat w o = Some s /\ enable gov s = Some s' /\ w' = w_stat o (reset_misses s') w.
Proof.
  unfold enable_validator. intros H. flat H. destruct (v_stat w o) as [s|] eqn:S0; [|discriminate]. destruct (enable gov s) as [s'|] eqn:E; [|discriminate].
  injection H as <-. eauto.
Qed.
Lemma edit_info_keeps values : forall i j, edit_info values i = Some j -> vi_node j = vi_node i /\ vi_grade j = vi_grade i.
Proof.
  induction values as [|[k x] r IH]; intros i j H; cbn in H; [injection H as <-; auto|].
  repeat match type of H with context [if ?b then _ else _] => destruct b; try discriminate H end; apply IH in H; auto.
Qed.
Lemma set_info_inv o values w w' : set_validator_info o values w = inr (tt, w') ->
  exists i j, v_info w o = Some i /\ vi_node j = vi_node i /\ vi_grade j = vi_grade i /\ w' = w_info o j w.
Proof.
  unfold set_validator_info. intros H. flat H. destruct (v_info w o) as [i|] eqn:I0; [|discriminate].
  destruct (edit_info values i) as [j|] eqn:E; [|discriminate]. injection H as <-. apply edit_info_keeps in E as [A B]. eauto 6.
Qed.
Lemma enable_keeps gov s s' : enable gov s = Some s' -> (0 <= vs_misses s /\ 0 <= vs_used s <= 3)%Z ->
  vs_disq s = false /\ vs_disq s' = false /\ vs_disabled s' = false /\ (0 <= vs_used s' <= 3)%Z.
Proof.
  unfold enable. destruct (vs_disq s) eqn:D; [discriminate|]. unfold enabled. rewrite D. destruct (vs_disabled s) eqn:B; cbn.
  - destruct gov; [intros H; injection H as <-; cbn; repeat split; auto; lia|]. unfold MaxEnableCount.
    destruct (Z.leb_spec 3 (vs_used s)); [discriminate|]. intros H0. injection H0 as <-. cbn. repeat split; auto; lia.
  - intros H Q. injection H as <-. repeat split; auto; lia.
Qed.

(** ** They keep the registry consistent *)
Lemma regs_register o n g name url w : regs w -> v_info w o = None -> v_stat w o = None -> v_nto w n = None ->
  regs (w_list g (vlist g w ++ [o]) (w_nto n o (w_stat o new_status (w_info o (mkInfo n g name url) w)))).
Proof.
  intros [r1 r2 r3 r4 r5 r6 r7 r8 r9] I0 S0 N0.
  set (w' := w_list g (vlist g w ++ [o]) (w_nto n o (w_stat o new_status (w_info o (mkInfo n g name url) w)))).
  assert (L : forall p h, live w' p h <-> live w p h \/ (p = o /\ h = g)).
  { intros p h. unfold live, w'. vc. unfold aupd. destruct (addr_eqb p o) eqn:E.
    - apply aeq in E. subst p. split.
      + intros (i & s & A & B & _). injection A as <-. cbn in B. auto.
      + intros [(i & s & A & _) | [_ ->]]; [congruence|]. eexists _, _. repeat split.
    - apply ane in E. split; [auto|]. intros [H | [H _]]; [auto | contradiction]. }
  assert (NL : forall h, ~ live w o h) by (intros h (i & s & A & _); congruence).
  assert (NM : ~ In o (v_main w)) by (rewrite r2; auto). assert (NS : ~ In o (v_sub w)) by (rewrite r3; auto).
  assert (ADD : forall l, NoDup l -> ~ In o l -> NoDup (l ++ [o])).
  { intros l A B. apply nodup_join; [auto | repeat constructor; auto |]. intros x Hx [<- | []]. contradiction. }
  destruct r5 as (d1 & d2 & d3). constructor.
  - intros p. unfold w'. vc. unfold aupd. destruct (addr_eqb p o); [split; discriminate | auto].
  - intros p. rewrite L. unfold w'. vc. destruct g; cbn [grade_eqb vlist].
    + rewrite r2. split; [auto|]. intros [H | [_ H]]; [auto | discriminate].
    + rewrite in_app_iff, r2. cbn. split; [intros [H | [H | []]]; auto | intros [H | [H _]]; auto].
  - intros p. rewrite L. unfold w'. vc. destruct g; cbn [grade_eqb vlist].
    + rewrite in_app_iff, r3. cbn. split; [intros [H | [H | []]]; auto | intros [H | [H _]]; auto].
    + rewrite r3. split; [auto|]. intros [H | [_ H]]; [auto | discriminate].
  - intros p. unfold w'. vc. rewrite r4. unfold disqualified. vc. unfold aupd. destruct (addr_eqb p o) eqn:E; [|tauto]. apply aeq in E. subst p. split.
    + intros (s & A & _). congruence.
    + intros (s & A & B). injection A as <-. discriminate.
  - unfold w'. vc. destruct g; cbn [grade_eqb vlist]; auto.
  - intros p i. unfold w'. vc. unfold aupd at 1. destruct (addr_eqb p o) eqn:E.
    + intros H. injection H as <-. cbn. apply aeq in E. subst p. apply aupd_same.
    + intros H. apply r6 in H. rewrite aupd_other; [auto | congruence].
  - intros m p. unfold w'. vc. unfold aupd. destruct (addr_eqb m n).
    + intros H. injection H as <-. rewrite arefl. discriminate.
    + intros H. destruct (addr_eqb p o); [discriminate | eauto].
  - intros p s. unfold w'. vc. unfold aupd. destruct (addr_eqb p o); [intros H; injection H as <-; cbn; lia | apply r8].
  - intros p i s. unfold w'. vc. unfold aupd. destruct (addr_eqb p o); [|apply r9]. intros _ _ H. injection H as <-. reflexivity.
Qed.
Lemma regs_unregister o s i l w : regs w -> v_stat w o = Some s -> vs_disq s = false -> v_info w o = Some i -> pop_swap o (vlist (vi_grade i) w) = Some l ->
  regs (w_gone (v_gone w ++ [o]) (w_list (vi_grade i) l (w_stat o (mkStat (vs_disabled s) true (vs_misses s) (vs_used s)) w))).
Proof.
  intros [r1 r2 r3 r4 r5 r6 r7 r8 r9] S0 D0 I0 P0.
  set (w' := w_gone _ _). destruct r5 as (d1 & d2 & d3).
  assert (DL : NoDup (vlist (vi_grade i) w)) by (destruct (vi_grade i); auto).
  destruct (pop_swap_some _ _ _ DL P0) as (Q1 & Q2 & Q3).
  assert (L : forall p h, live w' p h <-> live w p h /\ p <> o).
  { intros p h. unfold live, w'. vc. unfold aupd. destruct (addr_eqb p o) eqn:E.
    - apply aeq in E. subst p. split; [|tauto]. intros (j & x & _ & _ & A & B). injection A as <-. discriminate.
    - apply ane in E. tauto. }
  assert (NG : ~ In o (v_gone w)) by (rewrite r4; intros (x & A & B); congruence).
  constructor.
  - intros p. unfold w'. vc. unfold aupd. destruct (addr_eqb p o) eqn:E; [|auto]. apply aeq in E. subst p. rewrite I0. split; discriminate.
  - intros p. rewrite L. unfold w'. vc. destruct (vi_grade i) eqn:G; cbn [grade_eqb vlist] in *.
    + rewrite r2. split; [|tauto]. intros H. split; [auto|]. intros ->. destruct H as (j & x & A & B & _). congruence.
    + rewrite Q3, r2. tauto.
  - intros p. rewrite L. unfold w'. vc. destruct (vi_grade i) eqn:G; cbn [grade_eqb vlist] in *.
    + rewrite Q3, r3. tauto.
    + rewrite r3. split; [|tauto]. intros H. split; [auto|]. intros ->. destruct H as (j & x & A & B & _). congruence.
  - intros p. unfold w'. vc. rewrite in_app_iff, r4. cbn. unfold disqualified. vc. unfold aupd. destruct (addr_eqb p o) eqn:E.
    + apply aeq in E. subst p. split; [intros _; eexists; split; reflexivity | auto].
    + apply ane in E. split; [intros [H | [H | []]]; [auto | congruence] | auto].
  - unfold w'. vc. assert (NoDup (v_gone w ++ [o])).
    { apply nodup_join; [auto | repeat constructor; auto |]. intros x Hx [<- | []]. contradiction. }
    destruct (vi_grade i); cbn [grade_eqb]; auto.
  - exact r6.
  - exact r7.
  - intros p x. unfold w'. vc. unfold aupd. destruct (addr_eqb p o); [|apply r8]. intros H. injection H as <-. cbn. apply (r8 o s S0).
  - intros p j x. unfold w'. vc. unfold aupd. destruct (addr_eqb p o) eqn:E; [|apply r9]. apply aeq in E. subst p. intros A B H. injection H as <-.
    cbn. eapply r9; eauto.
Qed.
Lemma regs_info o i j w : regs w -> v_info w o = Some i -> vi_node j = vi_node i -> vi_grade j = vi_grade i -> regs (w_info o j w).
Proof.
  intros [r1 r2 r3 r4 r5 r6 r7 r8 r9] I0 N0 G0.
  assert (L : forall p h, live (w_info o j w) p h <-> live w p h).
  { intros p h. unfold live. vc. unfold aupd. destruct (addr_eqb p o) eqn:E; [|tauto]. apply aeq in E. subst p. split.
    - intros (x & s & A & B & C). injection A as <-. exists i, s. rewrite <- G0. auto.
    - intros (x & s & A & B & C). exists j, s. split; [auto|]. split; [congruence | auto]. }
  constructor; try (intros p; rewrite L); vc; auto.
  - intros p. vc. unfold aupd. destruct (addr_eqb p o) eqn:E; [|auto]. apply aeq in E. subst p. rewrite <- r1, I0. split; discriminate.
  - intros p x. vc. unfold aupd. destruct (addr_eqb p o) eqn:E; [|auto]. apply aeq in E. subst p. intros H. injection H as <-. rewrite N0. auto.
  - intros m p H. vc. unfold aupd. destruct (addr_eqb p o); [discriminate | eauto].
  - intros p x s. vc. unfold aupd. destruct (addr_eqb p o) eqn:E; [|apply r9]. apply aeq in E. subst p. intros H. injection H as <-.
    rewrite G0. intros. eapply r9; eauto.
Qed.
Lemma regs_set_node o new i w : regs w -> v_info w o = Some i -> v_nto w new = None ->
  regs (w_info o (mkInfo new (vi_grade i) (vi_name i) (vi_url i)) (w_nto new o w)).
Proof.
  intros [r1 r2 r3 r4 r5 r6 r7 r8 r9] I0 N0. set (w' := w_info _ _ _).
  assert (L : forall p h, live w' p h <-> live w p h).
  { intros p h. unfold live, w'. vc. unfold aupd. destruct (addr_eqb p o) eqn:E; [|tauto]. apply aeq in E. subst p. split.
    - intros (x & s & A & B & C). injection A as <-. exists i, s. auto.
    - intros (x & s & A & B & C). rewrite I0 in A. injection A as <-. eexists _, s. split; [reflexivity | auto]. }
  constructor; try (intros p; rewrite L); unfold w'; vc; auto.
  - intros p. vc. unfold aupd. destruct (addr_eqb p o) eqn:E; [|auto]. apply aeq in E. subst p. rewrite <- r1, I0. split; discriminate.
  - intros p x. vc. unfold aupd at 1. destruct (addr_eqb p o) eqn:E.
    + apply aeq in E. subst p. intros H. injection H as <-. cbn. apply aupd_same.
    + intros H. apply r6 in H. rewrite aupd_other; [auto | congruence].
  - intros m p. vc. unfold aupd. destruct (addr_eqb m new) eqn:E.
    + intros H. injection H as <-. rewrite arefl. discriminate.
    + intros H. destruct (addr_eqb p o); [discriminate | eauto].
  - intros p x s. vc. unfold aupd. destruct (addr_eqb p o) eqn:E; [|apply r9]. apply aeq in E. subst p. intros H. injection H as <-.
    cbn. intros. eapply r9; eauto.
Qed.
