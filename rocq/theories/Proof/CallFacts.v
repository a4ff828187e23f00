(** The frames of a transaction against the tree of its calls. *)
Require Import ZArith List Bool Lia.
From Verif.Model Require Import CallFrames.
From Verif.Spec Require Import CallSpec.
Import ListNotations.
Open Scope Z_scope.

Section Facts.
  Variables W E M A : Type.
  Notation frame := (frame W E M A).
  Notation cfg := (cfg W E M A).
  Notation action := (action W E M A).
  Notation node := (node W E M A).

  Definition live {X} (ro : bool) (l : list X) : list X := if ro then [] else l.

  Lemma live_app : forall X ro (a b : list X), live ro (a ++ b) = live ro a ++ live ro b.
  Proof. intros X [] a b; reflexivity. Qed.

  Lemma apply_all_app : forall (a b : list (W -> W)) w,
    apply_all (a ++ b) w = apply_all b (apply_all a w).
  Proof. intros a b w. unfold apply_all. apply fold_left_app. Qed.

  Lemma tree_weaken : forall b (l : list node), tree false l -> tree b l.
  Proof.
    intros b l H. remember false as x eqn:Hx.
    induction H; subst; try (econstructor; auto; fail); try discriminate.
  Qed.

  Lemma tree_app : forall b (l1 l2 : list node), tree false l1 -> tree b l2 -> tree b (l1 ++ l2).
  Proof.
    intros b l1 l2 H H2. remember false as x eqn:Hx.
    induction H; subst; cbn [app]; try (econstructor; eauto; fail); auto; try discriminate.
  Qed.

  Lemma existsb_snoc : forall (l : list node) n,
    existsb is_readonly (l ++ [n]) = existsb is_readonly l || is_readonly n.
  Proof. intros l n. rewrite existsb_app. cbn. rewrite orb_false_r. reflexivity. Qed.

  (** The top frame [f] against the body of its call, [ro0]: it was read-only
      when it was entered. *)
  Record agrees (ro0 : bool) (f : frame) (body : list node) : Prop := {
    ag_tree : tree false body;
    ag_ro : f_readonly f = ro0 || existsb is_readonly body;
    ag_logs : f_logs f = live (f_readonly f) (flat_map events body);
    ag_msgs : f_msgs f = live (f_readonly f) (flat_map messages body)
  }.

  Definition head_ro (stack : list frame) : bool :=
    match stack with [] => false | f :: _ => f_readonly f end.

  Variable w0 : W.
  Variable q : bool.

  Inductive rel : list frame -> W -> list action -> Prop :=
  | rel_base : forall f body,
      f_sync f = false ->
      existsb is_readonly body = false ->
      agrees q f body ->
      rel [f] (apply_all (live (f_readonly f) (flat_map writes body)) w0)
          (flat_map actions body)
  | rel_push : forall f body lim p rest w tr,
      rel (p :: rest) w tr ->
      agrees (f_readonly p) f body ->
      (f_readonly f = false -> f_snap f = Some w) ->
      (rest = [] -> f_sync f = true) ->
      rel (f :: p :: rest) (apply_all (live (f_readonly f) (flat_map writes body)) w)
          (tr ++ ACall (f_sync f) lim :: flat_map actions body).

  Lemma rel_zip : forall p rest w tr,
    rel (p :: rest) w tr ->
    exists we tre body ro0,
      agrees ro0 p body /\
      w = apply_all (live (f_readonly p) (flat_map writes body)) we /\
      tr = tre ++ flat_map actions body /\
      (rest = [] -> existsb is_readonly body = false) /\
      (rest <> [] -> f_readonly p = false -> f_snap p = Some we) /\
      (rest <> [] -> ro0 = head_ro rest) /\
      (forall p' body',
         f_sync p' = f_sync p ->
         agrees ro0 p' body' ->
         (rest = [] -> existsb is_readonly body' = false) ->
         (rest <> [] -> f_readonly p' = false -> f_snap p' = Some we) ->
         rel (p' :: rest) (apply_all (live (f_readonly p') (flat_map writes body')) we)
             (tre ++ flat_map actions body')).
  Proof.
    intros p rest w tr H. inversion H; subst.
    - exists w0, [], body, q. split; [assumption|]. split; [reflexivity|].
      split; [reflexivity|]. split; [auto|]. split; [congruence|]. split; [congruence|].
      intros p' body' Hs Ha Hb _. cbn [app]. apply rel_base; auto. congruence.
    - exists w1, (tr0 ++ [ACall (f_sync p) lim]), body, (f_readonly p0).
      split; [assumption|]. split; [reflexivity|].
      split; [rewrite <- app_assoc; reflexivity|]. split; [congruence|].
      split; [auto|]. split; [reflexivity|].
      intros p' body' Hs Ha Hb Hsn. rewrite <- app_assoc. cbn [app]. rewrite <- Hs.
      apply rel_push; auto.
      + intro Hro. apply Hsn; congruence.
      + intro Hr. rewrite Hs. auto.
  Qed.

  (** Something without a call happens in the current frame. *)
  Lemma rel_leaf : forall p p' rest w tr n,
    rel (p :: rest) w tr ->
    f_sync p' = f_sync p -> f_snap p' = f_snap p -> f_readonly p' = f_readonly p ->
    f_logs p' = f_logs p ++ live (f_readonly p) (events n) ->
    f_msgs p' = f_msgs p ++ live (f_readonly p) (messages n) ->
    is_readonly n = false -> tree false [n] ->
    rel (p' :: rest) (apply_all (live (f_readonly p) (writes n)) w) (tr ++ actions n).
  Proof.
    intros p p' rest w tr n H Hs Hsn Hro Hl Hm Hn Ht.
    destruct (rel_zip _ _ _ _ H) as (we & tre & body & ro0 & Ha & Hw & Htr & Hb & Hsnap & _ & Hre).
    assert (Ha' : agrees ro0 p' (body ++ [n])).
    { destruct Ha as [H1 H2 H3 H4]. constructor.
      - apply tree_app; assumption.
      - rewrite Hro, H2, existsb_snoc, Hn, orb_false_r. reflexivity.
      - rewrite Hl, H3, Hro, flat_map_app, live_app. cbn [flat_map].
        rewrite app_nil_r. reflexivity.
      - rewrite Hm, H4, Hro, flat_map_app, live_app. cbn [flat_map].
        rewrite app_nil_r. reflexivity. }
    pose proof (Hre p' (body ++ [n]) Hs Ha') as X.
    rewrite Hro, flat_map_app, live_app, apply_all_app in X.
    rewrite flat_map_app, app_assoc in X. cbn [flat_map] in X. rewrite !app_nil_r in X.
    rewrite <- Hw, <- Htr in X. apply X.
    - intro Hr. rewrite existsb_snoc, Hn, orb_false_r. auto.
    - intros Hr Hf. rewrite Hsn. apply Hsnap; assumption.
  Qed.

  (** Frames above a read-only frame are read-only. *)
  Lemma rel_head_ro : forall f p rest w tr,
    rel (f :: p :: rest) w tr -> f_readonly p = true -> f_readonly f = true.
  Proof.
    intros f p rest w tr H Hp. inversion H; subst.
    match goal with X : agrees _ f _ |- _ => destruct X as [_ X2 _ _] end.
    rewrite X2, Hp. reflexivity.
  Qed.

  (** A node without effect is added to the frame on the top. *)
  Lemma rel_mute : forall p rest w tr n,
    rel (p :: rest) w tr -> writes n = [] -> events n = [] -> messages n = [] ->
    is_readonly n = false -> tree false [n] ->
    rel (p :: rest) w (tr ++ actions n).
  Proof.
    intros p rest w tr n H Hw He Hm Hr Ht.
    assert (X := rel_leaf p p rest w tr n H eq_refl eq_refl eq_refl).
    rewrite Hw, He, Hm in X.
    assert (L : forall T, live (f_readonly p) (@nil T) = []) by (intros T; destruct (f_readonly p); reflexivity).
    rewrite !L, !app_nil_r in X. apply X; auto.
  Qed.

  Lemma rel_cut : forall stack w tr extra wa wr stack',
    rel stack w tr ->
    tree true extra ->
    (head_ro stack = true -> wa = w) ->
    clean_up stack wa = Some (wr, stack') ->
    stack' <> [] /\ rel stack' wr (tr ++ flat_map actions extra ++ [AAbort]).
  Proof.
    induction stack as [|f stack IH]; intros w tr extra wa wr stack' H Hx Hro Hc;
      [discriminate Hc|].
    inversion H as [ff body0 Hsy0 Hbr Hag | ff body lim p rest w1 tr0 Hp Ha Hsn Hbase]; subst.
    - cbn [clean_up] in Hc. rewrite Hsy0 in Hc. discriminate Hc.
    -
      cbn [clean_up] in Hc.
      assert (Hbody : tree true (body ++ extra)).
      { apply tree_app; [exact (ag_tree _ _ _ Ha)|assumption]. }
      cbn [head_ro] in Hro.
      destruct (f_sync f) eqn:Hsy.
      + injection Hc as Hwr Hst. subst stack'. split; [discriminate|].
        assert (Hwr' : wr = w1).
        { rewrite <- Hwr. unfold reset_to. destruct (f_readonly f) eqn:Hf.
          - rewrite (Hro eq_refl). reflexivity.
          - rewrite (Hsn eq_refl). reflexivity. }
        rewrite Hwr'.
        pose proof (rel_mute p rest w1 tr0 (Cut lim (body ++ extra)) Hp eq_refl eq_refl eq_refl eq_refl) as X.
        cbn [actions] in X. rewrite flat_map_app in X.
        rewrite <- !app_assoc. cbn [app]. rewrite <- !app_assoc in X. cbn [app] in X. apply X.
        apply tree_cut; [assumption|constructor].
      + destruct (IH w1 tr0 [Unfinished lim (body ++ extra)] wa wr stack' Hp) as [Y X].
        * apply tree_open. assumption.
        * cbn [head_ro]. intro Hpr.
          assert (Hf : f_readonly f = true) by (apply (rel_head_ro _ _ _ _ _ H Hpr)).
          rewrite (Hro Hf), Hf. reflexivity.
        * exact Hc.
        * split; [exact Y|].
          cbn [flat_map actions] in X. rewrite flat_map_app, app_nil_r in X.
          rewrite <- !app_assoc. cbn [app].
          cbn [app] in X. rewrite <- ?app_assoc in X. exact X.
  Qed.

  Lemma rel_return : forall pol f p rest w tr used status nf np c',
    rel (f :: p :: rest) w tr ->
    step pol (mkCfg w (f :: p :: rest) nf np) (AReturn used status) = Some c' ->
    rel (c_stack c') (c_world c') (tr ++ [AReturn used status]).
  Proof.
    intros pol f p rest w tr used status nf np c' H Hs.
    cbn in Hs. injection Hs as Hs. subst c'.
    inversion H as [ | ff body lim p0 rest0 w1 tr0 Hp Ha Hsn Hbase]; subst.
    set (n := Called (f_sync f) lim body used status).
    assert (Hn : tree false [n]).
    { apply tree_called; [exact (ag_tree _ _ _ Ha)|constructor]. }
    assert (Htr : forall l : list action,
      (tr0 ++ ACall (f_sync f) lim :: flat_map actions body) ++ [AReturn used status]
      = tr0 ++ actions n).
    { intros _. cbn [actions n]. unfold n. cbn [actions]. rewrite <- app_assoc. reflexivity. }
    rewrite (Htr []). clear Htr.
    unfold pop. cbn [deduct f_readonly].
    destruct (f_readonly f) eqn:Hf.
    - cbn [c_stack c_world live]. cbn [apply_all fold_left].
      change (apply_all [] w1) with w1.
      destruct (f_readonly p) eqn:Hpr.
      + (* the parent is read-only *)
        assert (X := rel_leaf p p rest w1 tr0 n Hp eq_refl eq_refl eq_refl).
        rewrite Hpr in X. cbn [live] in X. rewrite !app_nil_r in X.
        change (apply_all [] w1) with w1 in X. apply X; auto.
      + pose proof (ag_ro _ _ _ Ha) as Hm. cbn [orb] in Hm. rewrite Hf in Hm.
        apply rel_mute; auto; unfold n; cbn [writes events messages]; destruct status;
          try reflexivity; rewrite <- Hm; reflexivity.
    - assert (Hpr : f_readonly p = false /\ existsb is_readonly body = false).
      { pose proof (ag_ro _ _ _ Ha) as Hm. rewrite Hf in Hm. symmetry in Hm.
        apply orb_false_iff in Hm. exact Hm. }
      destruct Hpr as [Hpr Hbd].
      destruct status as [e|].
      + cbn [c_stack c_world]. unfold reset_to. cbn [deduct f_readonly f_snap].
        rewrite Hf, (Hsn eq_refl). apply rel_mute; auto.
      + cbn [c_stack c_world].
        match goal with |- rel (?x :: _) _ _ =>
          assert (X := rel_leaf p x rest w1 tr0 n Hp eq_refl eq_refl eq_refl) end.
        assert (N : writes n = flat_map writes body /\ events n = flat_map events body
                    /\ messages n = flat_map messages body).
        { unfold n. cbn [writes events messages]. rewrite Hbd. auto. }
        destruct N as (N1 & N2 & N3). rewrite N1, N2, N3 in X.
        rewrite Hpr in X |- *. cbn [live f_logs f_msgs] in X |- *. apply X; auto; f_equal.
        * cbn [deduct f_logs]. rewrite (ag_logs _ _ _ Ha), Hf. reflexivity.
        * cbn [deduct f_msgs]. rewrite (ag_msgs _ _ _ Ha), Hf. reflexivity.
  Qed.

  Lemma rel_portion : forall pol c a portion tr c',
    rel (c_stack c) (c_world c) tr ->
    step pol c (APortion a portion) = Some c' ->
    rel (c_stack c') (c_world c') (tr ++ [APortion a portion]).
  Proof.
    intros pol [w stack nf np] a portion tr c' H Hs. cbn [c_stack c_world] in H.
    destruct stack as [|f [|p rest]]; [discriminate Hs|discriminate Hs|].
    cbn in Hs. injection Hs as Hs.
    assert (Same : rel (f :: p :: rest) w (tr ++ [APortion a portion])).
    { apply (rel_mute f (p :: rest) w tr (Agreed a portion)); auto. repeat constructor. }
    unfold set_fee in Hs. destruct (negb (fee_sharing pol)); [subst c'; exact Same|].
    destruct (Nat.eqb (f_fid f) 2).
    - subst c'. cbn [c_stack c_world].
      inversion Same as [ | ff body lim p0 rest0 w1 tr0 Hp Ha Hsn Hbase]; subst.
      apply rel_push; auto.
      match goal with |- rel (?x :: _) _ _ =>
        assert (X := rel_leaf p x rest w1 tr0 (Spent 0) Hp eq_refl eq_refl eq_refl) end.
      destruct (rel_zip _ _ _ _ Hp) as (we & tre & bd & ro0 & Ga & Gw & Gtr & Gb & Gsn & _ & Gre).
      rewrite Gw, Gtr. apply (Gre (set_payers p (set_portion (f_payers p) np a portion)) bd); auto.
      destruct Ga as [G1 G2 G3 G4]. constructor; auto.
    - destruct (multiple_payers pol); subst c'; cbn [c_stack c_world]; [|exact Same].
      destruct (rel_zip _ _ _ _ Same) as (we & tre & bd & ro0 & Ga & Gw & Gtr & Gb & Gsn & _ & Gre).
      rewrite Gw, Gtr. apply (Gre (set_payers f (set_portion (f_payers f) np a portion)) bd); auto.
      destruct Ga as [G1 G2 G3 G4]. constructor; auto.
  Qed.

  Lemma rel_readonly : forall pol c tr c',
    rel (c_stack c) (c_world c) tr ->
    step pol c AReadOnly = Some c' ->
    rel (c_stack c') (c_world c') (tr ++ [AReadOnly]).
  Proof.
    intros pol [w stack nf np] tr c' H Hs. cbn [c_stack c_world] in H.
    destruct stack as [|f [|p rest]]; [discriminate Hs|discriminate Hs|].
    cbn in Hs. injection Hs as Hs.
    inversion H as [ | ff body lim p0 rest0 w1 tr0 Hp Ha Hsn Hbase]; subst.
    unfold enter_readonly. destruct (f_readonly f) eqn:Hf; cbn [c_stack c_world].
    - cbn [live]. rewrite <- app_assoc. cbn [app].
      change (apply_all [] w1) with (apply_all (live true (flat_map writes (body ++ [Became_readonly]))) w1).
      rewrite <- Hf.
      assert (E1 : flat_map actions body ++ [AReadOnly] = flat_map actions (body ++ [Became_readonly]))
        by (rewrite flat_map_app; reflexivity).
      rewrite E1. apply rel_push; auto.
      + destruct Ha as [G1 G2 G3 G4]. rewrite Hf in G3, G4. constructor.
        * apply tree_app; [assumption|repeat constructor].
        * rewrite existsb_snoc, Hf. cbn. rewrite !orb_true_r. reflexivity.
        * rewrite Hf. exact G3.
        * rewrite Hf. exact G4.
      + congruence.
    - unfold reset_to. rewrite Hf, (Hsn eq_refl). rewrite <- app_assoc. cbn [app].
      assert (E1 : flat_map actions body ++ [AReadOnly] = flat_map actions (body ++ [Became_readonly]))
        by (rewrite flat_map_app; reflexivity).
      rewrite E1.
      match goal with |- rel (?x :: _) _ _ =>
        assert (X := rel_push x (body ++ [Became_readonly]) lim p rest w1 tr0 Hp) end.
      cbn [f_readonly f_sync live] in X. apply X; auto; [|discriminate].
      destruct Ha as [G1 G2 G3 G4]. constructor; cbn [f_readonly f_logs f_msgs].
      + apply tree_app; [assumption|repeat constructor].
      + rewrite existsb_snoc. cbn. rewrite !orb_true_r. reflexivity.
      + reflexivity.
      + reflexivity.
  Qed.

  Lemma rel_step : forall pol c a tr c',
    rel (c_stack c) (c_world c) tr ->
    step pol c a = Some c' ->
    rel (c_stack c') (c_world c') (tr ++ [a]).
  Proof.
    intros pol c a tr c' H Hs. destruct a as [g|e|m|n|a n| |s l|u st|].
    - destruct c as [w [|f rest] nf np]; [discriminate Hs|]. cbn in Hs, H.
      assert (X := rel_leaf f f rest w tr (Wrote g) H eq_refl eq_refl eq_refl).
      cbn [events messages writes actions] in X.
      assert (L : forall T, live (f_readonly f) (@nil T) = []) by (intros T; destruct (f_readonly f); reflexivity).
      rewrite !L, !app_nil_r in X.
      destruct (f_readonly f); injection Hs as Hs; subst c'; cbn [c_stack c_world];
        apply X; auto; repeat constructor.
    - destruct c as [w [|f rest] nf np]; [discriminate Hs|]. cbn in Hs, H.
      injection Hs as Hs; subst c'; cbn [c_stack c_world].
      assert (X := rel_leaf f (add_log f e) rest w tr (Emitted e) H).
      cbn [writes] in X.
      assert (L : forall T, live (f_readonly f) (@nil T) = []) by (intros T; destruct (f_readonly f); reflexivity).
      cbn [messages events] in X. rewrite !L in X. apply X; clear X; auto;
        try (unfold add_log; destruct (f_readonly f) eqn:Hf; cbn; rewrite ?app_nil_r; auto; fail).
      repeat constructor.
    - destruct c as [w [|f rest] nf np]; [discriminate Hs|]. cbn in Hs, H.
      injection Hs as Hs; subst c'; cbn [c_stack c_world].
      assert (X := rel_leaf f (add_msg f m) rest w tr (Sent m) H).
      cbn [writes] in X.
      assert (L : forall T, live (f_readonly f) (@nil T) = []) by (intros T; destruct (f_readonly f); reflexivity).
      cbn [messages events] in X. rewrite !L in X. apply X; clear X; auto;
        try (unfold add_msg; destruct (f_readonly f) eqn:Hf; cbn; rewrite ?app_nil_r; auto; fail).
      repeat constructor.
    - destruct c as [w [|f rest] nf np]; [discriminate Hs|]. cbn in Hs, H.
      injection Hs as Hs; subst c'; cbn [c_stack c_world].
      assert (X := rel_leaf f (deduct f n) rest w tr (Spent n) H eq_refl eq_refl eq_refl).
      cbn [writes events messages] in X.
      assert (L : forall T, live (f_readonly f) (@nil T) = []) by (intros T; destruct (f_readonly f); reflexivity).
      rewrite !L, !app_nil_r in X. apply X; clear X; auto.
      repeat constructor.
    - eapply rel_portion; eassumption.
    - eapply rel_readonly; eassumption.
    - destruct c as [w [|f rest] nf np]; [discriminate Hs|]. cbn in H.
      assert (Hsn : (rest = [] -> s = true) /\ c' = push (mkCfg w (f :: rest) nf np) f s l).
      { cbn in Hs. destruct rest; destruct s; try discriminate Hs; injection Hs as Hs; subst c'; auto.
        split; [discriminate|reflexivity]. }
      destruct Hsn as [Hb Hc]. subst c'. unfold push. cbn [c_stack c_world].
      match goal with |- rel (?x :: _) _ _ =>
        assert (X := rel_push x [] l f rest w tr H) end.
      cbn [f_sync f_readonly f_snap flat_map actions] in X.
      assert (L : forall T, live (f_readonly f) (@nil T) = []) by (intros T; destruct (f_readonly f); reflexivity).
      rewrite L in X. apply X; clear X; auto.
      + constructor; cbn [f_readonly f_logs f_msgs flat_map existsb].
        * apply tree_nil.
        * rewrite orb_false_r. reflexivity.
        * rewrite L. reflexivity.
        * rewrite L. reflexivity.
      + intro Hf. rewrite Hf. reflexivity.
    - destruct c as [w [|f [|p rest]] nf np]; [discriminate Hs|discriminate Hs|].
      eapply rel_return; eassumption.
    - destruct c as [w stack nf np]. cbn [c_stack c_world] in H.
      destruct stack as [|f rest]; [discriminate Hs|].
      unfold step in Hs. cbn [c_stack c_world] in Hs.
      destruct (clean_up (f :: rest) w) as [[w' st']|] eqn:Hc; [|discriminate Hs].
      injection Hs as Hs. subst c'. cbn [c_stack c_world].
      destruct (rel_cut (f :: rest) w tr [] w w' st' H (tree_nil _ _ _ _ true) (fun _ => eq_refl) Hc) as [_ X].
      exact X.
  Qed.

  Lemma rel_run : forall pol l c tr c',
    rel (c_stack c) (c_world c) tr -> run pol c l = Some c' ->
    rel (c_stack c') (c_world c') (tr ++ l).
  Proof.
    induction l as [|a l IH]; intros c tr c' H Hr.
    - cbn in Hr. injection Hr as Hr. subst. rewrite app_nil_r. exact H.
    - cbn [run] in Hr. destruct (step pol c a) as [c1|] eqn:Hs; [|discriminate Hr].
      pose proof (IH c1 (tr ++ [a]) c' (rel_step pol c a tr c1 H Hs) Hr) as X.
      rewrite <- app_assoc in X. exact X.
  Qed.

  Lemma rel_start : forall limit,
    rel (c_stack (new_context (E:=E) (M:=M) (A:=A) w0 limit q))
        (c_world (new_context (E:=E) (M:=M) (A:=A) w0 limit q)) [].
  Proof.
    intro limit. cbn.
    set (f := mkFrame 1 false q None 0 limit [] [] []).
    pose proof (rel_base f [] eq_refl eq_refl) as X.
    assert (L : forall T, live q (@nil T) = []) by (intros T; destruct q; reflexivity).
    cbn [f f_readonly flat_map] in X. unfold f in X at 2. cbn [f_readonly] in X.
    rewrite L in X. apply X. constructor; unfold f; cbn.
    - apply tree_nil.
    - rewrite orb_false_r. reflexivity.
    - rewrite L. reflexivity.
    - rewrite L. reflexivity.
  Qed.
End Facts.
