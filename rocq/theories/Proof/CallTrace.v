(** A call which fails, is cut or is read-only leaves no trace; used steps. *)
Require Import ZArith List Bool Lia.
From Verif.Model Require Import CallFrames.
From Verif.Spec Require Import CallSpec.
From Verif.Proof Require Import CallFacts.
Import ListNotations.
Open Scope Z_scope.

Section Trace.
  Variables W E M A : Type.
  Notation frame := (frame W E M A).
  Notation cfg := (cfg W E M A).
  Notation action := (action W E M A).

  (** [w] and [below]: the world and the stack when the call began. *)
  Record inside (w : W) (below : list frame) (c : cfg) (top : list frame) (f1 : frame)
      (below' : list frame) : Prop := {
    in_stack : c_stack c = top ++ f1 :: below';
    in_below : map without_payers below' = map without_payers below;
    in_ro : f_readonly f1 = true ->
            Forall (fun f => f_readonly f = true) top /\ c_world c = w;
    in_snap : f_readonly f1 = false -> f_snap f1 = Some w
  }.

  Lemma clean_up_inside : forall top f1 below w0 w wr st,
    f_readonly f1 = true -> Forall (fun f : frame => f_readonly f = true) top ->
    clean_up (top ++ f1 :: below) w0 = Some (wr, st) ->
    (List.length below < List.length st)%nat ->
    w0 = w -> wr = w /\ exists top', st = top' ++ f1 :: below /\
                     Forall (fun f => f_readonly f = true) top'.
  Proof.
    induction top as [|t top IH]; intros f1 below w0 w wr st Hf Ht Hc Hl Hw; cbn [app clean_up] in Hc.
    - destruct (f_sync f1).
      + injection Hc as _ Hc. subst st. lia.
      + exfalso. assert (L : forall l wa x y, clean_up (W:=W)(E:=E)(M:=M)(A:=A) l wa = Some (x, y) ->
                                   (List.length y <= List.length l)%nat).
        { clear. induction l as [|g l IH]; intros wa x y H; cbn in H; [discriminate|].
          destruct (f_sync g); [injection H as _ H; subst; cbn; lia|].
          apply IH in H. cbn. lia. }
        apply L in Hc. lia.
    - inversion Ht as [|? ? Ht1 Ht2]; subst. destruct (f_sync t).
      + injection Hc as Hc1 Hc2. subst. unfold reset_to. rewrite Ht1.
        split; [reflexivity|]. exists top. auto.
      + apply (IH f1 below w w wr st Hf Ht2 Hc Hl eq_refl).
  Qed.

  Lemma clean_up_inside2 : forall top f1 below w0 wr st,
    clean_up (top ++ f1 :: below) w0 = Some (wr, st) ->
    (List.length below < List.length st)%nat ->
    exists top' : list frame, st = top' ++ f1 :: below.
  Proof.
    induction top as [|t top IH]; intros f1 below w0 wr st Hc Hl; cbn [app clean_up] in Hc.
    - destruct (f_sync f1).
      + injection Hc as _ Hc. subst st. lia.
      + exfalso. assert (L : forall l wa x y, clean_up (W:=W)(E:=E)(M:=M)(A:=A) l wa = Some (x, y) ->
                                   (List.length y <= List.length l)%nat).
        { clear. induction l as [|g l IH]; intros wa x y H; cbn in H; [discriminate|].
          destruct (f_sync g); [injection H as _ H; subst; cbn; lia|].
          apply IH in H. cbn. lia. }
        apply L in Hc. lia.
    - destruct (f_sync t).
      + injection Hc as _ Hc. exists top. auto.
      + apply (IH _ _ _ _ _ Hc Hl).
  Qed.

  Lemma map_len : forall (a b : list frame), map without_payers a = map without_payers b ->
    List.length a = List.length b.
  Proof. intros a b H. apply (f_equal (@List.length _)) in H. rewrite !map_length in H. exact H. Qed.

  (** Replacing the frame at the top by one which is as read-only. *)
  Lemma inside_top : forall w below c top f1 below' t rest t' nf np w',
    inside w below c top f1 below' -> c_stack c = t :: rest ->
    f_readonly t' = f_readonly t -> f_snap t' = f_snap t ->
    (f_readonly t = true -> w' = c_world c) ->
    exists top' f1', inside w below (mkCfg w' (t' :: rest) nf np) top' f1' below'.
  Proof.
    intros w below c top f1 below' t rest t' nf np w' [I1 I2 I3 I4] Hs Hr Hsn Hw.
    rewrite Hs in I1. destruct top as [|t0 top]; cbn [app] in I1.
    - injection I1 as I1 I1'. subst t rest. exists [], t'.
      constructor; cbn [c_stack c_world app]; auto.
      + intro H. rewrite Hr in H. destruct (I3 H) as [_ H2]. split; [constructor|].
        rewrite (Hw H). exact H2.
      + intro H. rewrite Hr in H. rewrite Hsn. auto.
    - injection I1 as I1 I1'. subst t rest. exists (t' :: top), f1.
      constructor; cbn [c_stack c_world app]; auto.
      intro H. destruct (I3 H) as [H1 H2]. inversion H1; subst.
      split; [constructor; [congruence|assumption]|]. rewrite Hw; auto.
  Qed.

  Lemma inside_step : forall pol w below c a c' top f1 below',
    inside w below c top f1 below' ->
    step pol c a = Some c' ->
    (List.length below < List.length (c_stack c'))%nat ->
    exists top' f1' below'', inside w below c' top' f1' below''.
  Proof.
    intros pol w below c a c' top f1 below' I0 Hs Hl.
    destruct (c_stack c) as [|t rest] eqn:Hst.
    { destruct I0 as [I1 _ _ _]. rewrite Hst in I1. destruct top; discriminate I1. }
    unfold step in Hs. rewrite Hst in Hs.
    destruct a as [g|e|m|n|ad n| |s l|u st|].
    - destruct (f_readonly t) eqn:Hr; injection Hs as Hs; subst c'.
      + exists top, f1, below'. exact I0.
      + destruct (inside_top _ _ _ _ _ _ t rest t (c_nextfid c) (c_nextpid c) (g (c_world c)) I0 Hst eq_refl eq_refl)
          as (top' & f1' & X); [congruence|]. exists top', f1', below'. exact X.
    - injection Hs as Hs; subst c'.
      destruct (inside_top _ _ _ _ _ _ t rest (add_log t e) (c_nextfid c) (c_nextpid c) (c_world c) I0 Hst)
        as (top' & f1' & X); try (unfold add_log; destruct (f_readonly t) eqn:Hr; cbn; auto; fail); auto.
      exists top', f1', below'. exact X.
    - injection Hs as Hs; subst c'.
      destruct (inside_top _ _ _ _ _ _ t rest (add_msg t m) (c_nextfid c) (c_nextpid c) (c_world c) I0 Hst)
        as (top' & f1' & X); try (unfold add_msg; destruct (f_readonly t) eqn:Hr; cbn; auto; fail); auto.
      exists top', f1', below'. exact X.
    - injection Hs as Hs; subst c'.
      destruct (inside_top _ _ _ _ _ _ t rest (deduct t n) (c_nextfid c) (c_nextpid c) (c_world c) I0 Hst)
        as (top' & f1' & X); auto.
      exists top', f1', below'. exact X.
    - destruct rest as [|p rest]; [discriminate Hs|]. injection Hs as Hs.
      unfold set_fee in Hs. destruct (negb (fee_sharing pol)).
      { subst c'. exists top, f1, below'. exact I0. }
      destruct (Nat.eqb (f_fid t) 2).
      + subst c'. destruct I0 as [I1 I2 I3 I4]. rewrite Hst in I1.
        destruct top as [|t0 top]; cbn [app] in I1.
        * injection I1 as I1 I1'. subst f1 below'.
          exists [], t, (set_payers p (set_portion (f_payers p) (c_nextpid c) ad n) :: rest).
          constructor; cbn [c_stack c_world app]; auto.
        * injection I1 as I1 I1'. subst t0. destruct top as [|t1 top]; cbn [app] in I1'.
          -- injection I1' as I1' I1''. subst f1 below'.
             exists [t], (set_payers p (set_portion (f_payers p) (c_nextpid c) ad n)), rest.
             constructor; cbn [c_stack c_world app]; auto.
          -- injection I1' as I1' I1''. subst t1 rest.
             exists (t :: set_payers p (set_portion (f_payers p) (c_nextpid c) ad n) :: top), f1, below'.
             constructor; cbn [c_stack c_world app]; auto.
             intro H. destruct (I3 H) as [H1 H2]. split; [|exact H2].
             inversion H1 as [|? ? G1 G2]; subst. inversion G2; subst.
             constructor; [assumption|]. constructor; assumption.
      + destruct (multiple_payers pol); subst c'; [|exists top, f1, below'; exact I0].
        destruct (inside_top _ _ _ _ _ _ t (p :: rest)
                   (set_payers t (set_portion (f_payers t) (c_nextpid c) ad n))
                   (c_nextfid c) (S (c_nextpid c)) (c_world c) I0 Hst)
          as (top' & f1' & X); auto.
        exists top', f1', below'. exact X.
    - destruct rest as [|p rest]; [discriminate Hs|]. injection Hs as Hs. subst c'.
      unfold enter_readonly. destruct (f_readonly t) eqn:Hr.
      { exists top, f1, below'. exact I0. }
      destruct I0 as [I1 I2 I3 I4]. rewrite Hst in I1.
      destruct top as [|t0 top]; cbn [app] in I1.
      + injection I1 as I1 I1'. subst t below'.
        eexists [], _, (p :: rest).
        constructor; cbn [c_stack c_world app f_readonly].
        * reflexivity.
        * exact I2.
        * intros _. split; [constructor|]. unfold reset_to. rewrite Hr, (I4 Hr). reflexivity.
        * discriminate.
      + injection I1 as I1 I1'. subst t0. rewrite I1'.
        eexists (_ :: top), f1, below'.
        constructor; cbn [c_stack c_world app f_readonly].
        * reflexivity.
        * exact I2.
        * intro H. destruct (I3 H) as [H1 _]. inversion H1; subst. congruence.
        * exact I4.
    - assert (Hc : c' = push c t s l).
      { destruct rest; destruct s; try discriminate Hs; injection Hs as Hs; auto. }
      subst c'. destruct I0 as [I1 I2 I3 I4]. unfold push. rewrite I1.
      eexists (_ :: top), f1, below'.
      constructor; cbn [c_stack c_world app f_readonly].
      + reflexivity.
      + exact I2.
      + intro H. destruct (I3 H) as [H1 H2]. split; [|exact H2]. constructor; [|assumption].
        cbn [f_readonly]. rewrite Hst in I1. destruct top as [|t0 top]; cbn [app] in I1;
          injection I1 as I1 _; subst t; [exact H|]. inversion H1; subst. assumption.
      + exact I4.
    - destruct rest as [|p rest]; [discriminate Hs|]. injection Hs as Hs. subst c'.
      assert (Hlen : List.length (c_stack (pop c (deduct t u) p rest
                (match st with None => true | Some _ => false end))) = List.length (p :: rest)).
      { unfold pop. cbn [deduct f_readonly]. destruct (f_readonly t); [reflexivity|].
        destruct st; reflexivity. }
      rewrite Hlen in Hl. clear Hlen.
      destruct I0 as [I1 I2 I3 I4]. pose proof (map_len _ _ I2) as Hbl. rewrite Hst in I1.
      destruct top as [|t0 top]; cbn [app] in I1.
      { exfalso. injection I1 as I1 I1'. rewrite I1' in Hl. lia. }
      injection I1 as I1 I1'. subst t0.
      unfold pop. cbn [deduct f_readonly].
      destruct (f_readonly t) eqn:Hr.
      + rewrite I1'. exists top, f1, below'. constructor; cbn [c_stack c_world]; auto.
        intro H. destruct (I3 H) as [H1 H2]. inversion H1; subst. auto.
      + assert (Hf : f_readonly f1 = false).
        { destruct (f_readonly f1) eqn:Hf; [|reflexivity]. destruct (I3 eq_refl) as [H1 _].
          inversion H1; subst. congruence. }
        destruct st as [e|].
        * rewrite I1'. exists top, f1, below'. constructor; cbn [c_stack c_world]; auto. congruence.
        * destruct top as [|t1 top]; cbn [app] in I1'; injection I1' as I1' I1''.
          -- subst p rest. eexists [], _, below'.
             constructor; cbn [c_stack c_world app f_readonly]; [reflexivity|assumption|cbn [f_readonly]; intro; congruence|].
             intro. apply I4. exact Hf.
          -- subst p rest. eexists (_ :: top), f1, below'.
             constructor; cbn [c_stack c_world app f_readonly]; [reflexivity|assumption|intro; congruence|assumption].
    - destruct (clean_up (t :: rest) (c_world c)) as [[wr st]|] eqn:Hc; [|discriminate Hs].
      injection Hs as Hs. subst c'. cbn [c_stack] in Hl.
      destruct I0 as [I1 I2 I3 I4]. pose proof (map_len _ _ I2) as Hbl.
      rewrite Hst in I1. rewrite I1 in Hc. rewrite <- Hbl in Hl.
      destruct (f_readonly f1) eqn:Hf.
      + destruct (I3 eq_refl) as [H1 H2].
        destruct (clean_up_inside top f1 below' (c_world c) w wr st Hf H1 Hc Hl H2) as (G1 & top' & G2 & G3).
        exists top', f1, below'. constructor; cbn [c_stack c_world]; auto; try (intro; congruence).
      + destruct (clean_up_inside2 top f1 below' (c_world c) wr st Hc Hl) as [top' G].
        exists top', f1, below'. constructor; cbn [c_stack c_world]; auto; try (intro; congruence).
  Qed.

  Lemma inside_run : forall pol w below l c c' top f1 below',
    inside w below c top f1 below' ->
    stays pol (List.length below) c l -> run pol c l = Some c' ->
    exists top' f1' below'', inside w below c' top' f1' below''.
  Proof.
    induction l as [|a l IH]; intros c c' top f1 below' I0 Hst Hr.
    - cbn in Hr. injection Hr as Hr. subst. exists top, f1, below'. exact I0.
    - cbn [run] in Hr. cbn [stays] in Hst. destruct Hst as [_ Hst].
      destruct (step pol c a) as [c1|] eqn:Hs; [|discriminate Hr].
      assert (Hl : (List.length below < List.length (c_stack c1))%nat) by (destruct l; exact (proj1 Hst)).
      destruct (inside_step pol w below c a c1 top f1 below' I0 Hs Hl) as (t' & f' & b' & X).
      apply (IH c1 c' t' f' b' X Hst Hr).
  Qed.

  Lemma inside_push : forall pol (c : cfg) s lim c1,
    step pol c (ACall s lim) = Some c1 ->
    exists f1, inside (c_world c) (c_stack c) c1 [] f1 (c_stack c).
  Proof.
    intros pol c s lim c1 Hs. unfold step in Hs.
    destruct (c_stack c) as [|t rest] eqn:Hst; [discriminate Hs|].
    assert (Hc : c1 = push c t s lim).
    { destruct rest; destruct s; try discriminate Hs; injection Hs as Hs; auto. }
    subst c1. unfold push. rewrite <- Hst. eexists. constructor; cbn [c_stack c_world app f_readonly f_snap].
    - reflexivity.
    - reflexivity.
    - intros _. split; [constructor|reflexivity].
    - cbn [f_readonly f_snap]; intro H. rewrite H. reflexivity.
  Qed.

  Lemma no_trace_return : forall pol (c : cfg) s lim c1 l c2 u (st : option Z) c3,
    step pol c (ACall s lim) = Some c1 ->
    stays pol (List.length (c_stack c)) c1 l ->
    run pol c1 l = Some c2 ->
    List.length (c_stack c2) = S (List.length (c_stack c)) ->
    step pol c2 (AReturn u st) = Some c3 ->
    (st <> None \/ head_ro W E M A (c_stack c2) = true) ->
    c_world c3 = c_world c /\ map without_payers (c_stack c3) = map without_payers (c_stack c).
  Proof.
    intros pol c s lim c1 l c2 u st c3 H1 H2 H3 H4 H5 H6.
    destruct (inside_push pol c s lim c1 H1) as [f1 I0].
    destruct (inside_run pol _ _ l c1 c2 _ _ _ I0 H2 H3) as (top & f & b & [I1 I2 I3 I4]).
    pose proof (map_len _ _ I2) as Hbl.
    destruct top as [|t top].
    2: { exfalso. rewrite I1 in H4. rewrite app_length in H4. cbn in H4. lia. }
    cbn [app] in I1. unfold step in H5. rewrite I1 in H5. rewrite I1 in H6. cbn [head_ro] in H6.
    destruct b as [|p b]; [discriminate H5|]. injection H5 as H5. subst c3.
    unfold pop. cbn [deduct f_readonly]. destruct (f_readonly f) eqn:Hf.
    - cbn [c_world c_stack]. split; [exact (proj2 (I3 eq_refl))|exact I2].
    - destruct H6 as [H6|H6]; [|discriminate H6]. destruct st as [e|]; [|contradiction].
      cbn [c_world c_stack]. split; [|exact I2].
      unfold reset_to. cbn [deduct f_readonly f_snap]. rewrite Hf, (I4 eq_refl). reflexivity.
  Qed.

  Lemma no_trace_abort : forall pol (c : cfg) s lim c1 l c2 c3,
    step pol c (ACall s lim) = Some c1 ->
    stays pol (List.length (c_stack c)) c1 l ->
    run pol c1 l = Some c2 ->
    step pol c2 AAbort = Some c3 ->
    List.length (c_stack c3) = List.length (c_stack c) ->
    c_world c3 = c_world c /\ map without_payers (c_stack c3) = map without_payers (c_stack c).
  Proof.
    intros pol c s lim c1 l c2 c3 H1 H2 H3 H5 H6.
    destruct (inside_push pol c s lim c1 H1) as [f1 I0].
    destruct (inside_run pol _ _ l c1 c2 _ _ _ I0 H2 H3) as (top & f & b & [I1 I2 I3 I4]).
    pose proof (map_len _ _ I2) as Hbl. rewrite <- Hbl in H6.
    unfold step in H5. rewrite I1 in H5.
    assert (H5' : match clean_up (top ++ f :: b) (c_world c2) with
                  | Some (w, stack) => Some (mkCfg w stack (c_nextfid c2) (c_nextpid c2))
                  | None => None end = Some c3).
    { destruct (top ++ f :: b); [discriminate H5|exact H5]. }
    clear H5. destruct (clean_up (top ++ f :: b) (c_world c2)) as [[wr stk]|] eqn:Hc; [|discriminate H5'].
    injection H5' as H5'. subst c3. cbn [c_stack c_world] in *.
    assert (K : forall tp w0, (f_readonly f = true -> Forall (fun g => f_readonly g = true) tp /\ w0 = c_world c) ->
               clean_up (tp ++ f :: b) w0 = Some (wr, stk) -> wr = c_world c /\ stk = b).
    { clear Hc I1 I3. induction tp as [|t tp IH]; intros w0 Hro Hc; cbn [app clean_up] in Hc.
      - destruct (f_sync f).
        + injection Hc as Hc1 Hc2. subst. split; [|reflexivity]. unfold reset_to.
          destruct (f_readonly f) eqn:Hf; [exact (proj2 (Hro eq_refl))|]. rewrite (I4 eq_refl). reflexivity.
        + exfalso. assert (L : forall l wa x y, clean_up (W:=W)(E:=E)(M:=M)(A:=A) l wa = Some (x, y) ->
                                   (List.length y < List.length l)%nat).
          { clear. induction l as [|g l IH]; intros wa x y H; cbn in H; [discriminate|].
            destruct (f_sync g); [injection H as _ H; subst; cbn; lia|].
            apply IH in H. cbn. lia. }
          apply L in Hc. lia.
      - destruct (f_sync t).
        + exfalso. injection Hc as _ Hc. subst stk. rewrite app_length in H6. cbn in H6. lia.
        + apply IH with (w0 := w0); [|exact Hc]. intro Hf. destruct (Hro Hf) as [G1 G2].
          inversion G1; subst. auto. }
    destruct (K top (c_world c2) I3 Hc) as [G1 G2]. subst stk. auto.
  Qed.

  (** Used steps. *)
  Definition fair (a : action) : Prop :=
    match a with
    | ASpend n => 0 <= n
    | ACall _ lim => 0 <= lim
    | AReturn u _ => 0 <= u
    | _ => True
    end.

  Definition bounded (f : frame) : Prop := 0 <= f_used f <= f_limit f.

  Lemma deduct_bounded : forall f n, bounded f -> 0 <= n -> bounded (deduct f n).
  Proof.
    intros f n [H1 H2] Hn. unfold bounded, deduct. cbn [f_used f_limit].
    destruct (Z.ltb_spec (f_limit f) (f_used f + n)); lia.
  Qed.

  Lemma clean_up_forall : forall (P : frame -> Prop) l w wr st,
    Forall P l -> clean_up l w = Some (wr, st) -> Forall P st.
  Proof.
    induction l as [|f l IH]; intros w wr st H Hc; cbn in Hc; [discriminate|].
    inversion H; subst. destruct (f_sync f); [injection Hc as _ Hc; subst; assumption|].
    eapply IH; eassumption.
  Qed.

  Lemma bounded_step : forall pol c a c',
    Forall bounded (c_stack c) -> fair a -> step pol c a = Some c' -> Forall bounded (c_stack c').
  Proof.
    intros pol c a c' H Hf Hs. unfold step in Hs.
    destruct (c_stack c) as [|t rest] eqn:Hst; [discriminate Hs|].
    inversion H as [|? ? Ht Hrest]; subst.
    destruct a as [g|e|m|n|ad n| |s l|u st|]; cbn [fair] in Hf.
    - destruct (f_readonly t); injection Hs as Hs; subst c'; cbn [c_stack]; rewrite ?Hst; assumption.
    - injection Hs as Hs; subst c'; cbn [c_stack]. constructor; [|assumption].
      unfold add_log. destruct (f_readonly t); assumption.
    - injection Hs as Hs; subst c'; cbn [c_stack]. constructor; [|assumption].
      unfold add_msg. destruct (f_readonly t); assumption.
    - injection Hs as Hs; subst c'; cbn [c_stack]. constructor; [|assumption].
      apply deduct_bounded; assumption.
    - destruct rest as [|p rest]; [discriminate Hs|]. injection Hs as Hs. subst c'.
      inversion Hrest; subst.
      unfold set_fee. destruct (negb _); [rewrite Hst; assumption|].
      destruct (Nat.eqb _ _).
      { cbn [c_stack]. apply Forall_cons; [assumption|]. apply Forall_cons; assumption. }
      destruct (multiple_payers pol); [|rewrite Hst; assumption].
      cbn [c_stack]. apply Forall_cons; assumption.
    - destruct rest as [|p rest]; [discriminate Hs|]. injection Hs as Hs. subst c'.
      unfold enter_readonly. destruct (f_readonly t); [rewrite Hst; assumption|].
      cbn [c_stack]. constructor; assumption.
    - assert (Hc : c' = push c t s l).
      { destruct rest; destruct s; try discriminate Hs; injection Hs as Hs; auto. }
      subst c'. unfold push. cbn [c_stack]. rewrite Hst. constructor; [|assumption].
      unfold bounded. cbn. lia.
    - destruct rest as [|p rest]; [discriminate Hs|]. injection Hs as Hs. subst c'.
      inversion Hrest; subst. unfold pop. cbn [deduct f_readonly].
      destruct (f_readonly t); [cbn [c_stack]; assumption|].
      destruct st; cbn [c_stack]; constructor; assumption.
    - destruct (clean_up (t :: rest) (c_world c)) as [[wr st]|] eqn:Hc; [|discriminate Hs].
      injection Hs as Hs. subst c'. cbn [c_stack]. exact (clean_up_forall _ _ _ _ _ H Hc).
  Qed.

  Lemma bounded_run : forall pol l c c',
    Forall bounded (c_stack c) -> Forall fair l -> run pol c l = Some c' -> Forall bounded (c_stack c').
  Proof.
    induction l as [|a l IH]; intros c c' H Hf Hr; cbn in Hr.
    - injection Hr as Hr. subst. exact H.
    - inversion Hf; subst. destruct (step pol c a) as [c1|] eqn:Hs; [|discriminate Hr].
      apply (IH c1 c'); auto. eapply bounded_step; eassumption.
  Qed.

  (** The base frame stays at the bottom with the limit it was given. *)
  Fixpoint based (lim : Z) (stack : list frame) : Prop :=
    match stack with
    | [] => False
    | [b] => f_limit b = lim /\ f_sync b = false
    | _ :: rest => based lim rest
    end.

  Lemma based_top : forall lim t t' rest,
    based lim (t :: rest) -> f_limit t' = f_limit t -> f_sync t' = f_sync t -> based lim (t' :: rest).
  Proof. intros lim t t' [|p rest] H H1 H2; cbn in *; [rewrite H1, H2|]; exact H. Qed.

  Lemma based_clean : forall lim l w wr st,
    based lim l -> clean_up l w = Some (wr, st) -> based lim st.
  Proof.
    induction l as [|f l IH]; intros w wr st H Hc; cbn [clean_up] in Hc; [discriminate|].
    destruct l as [|p l].
    - cbn in H. destruct H as [_ H]. rewrite H in Hc. discriminate Hc.
    - destruct (f_sync f); [injection Hc as _ Hc; subst; exact H|]. exact (IH w wr st H Hc).
  Qed.

  Lemma based_step : forall lim pol c a c',
    based lim (c_stack c) -> step pol c a = Some c' -> based lim (c_stack c').
  Proof.
    intros lim pol c a c' H Hs. unfold step in Hs.
    destruct (c_stack c) as [|t rest] eqn:Hst; [discriminate Hs|].
    destruct a as [g|e|m|n|ad n| |s l|u st|].
    - destruct (f_readonly t); injection Hs as Hs; subst c'; cbn [c_stack]; rewrite ?Hst; assumption.
    - injection Hs as Hs; subst c'; cbn [c_stack]. apply (based_top lim t); auto;
        unfold add_log; destruct (f_readonly t); reflexivity.
    - injection Hs as Hs; subst c'; cbn [c_stack]. apply (based_top lim t); auto;
        unfold add_msg; destruct (f_readonly t); reflexivity.
    - injection Hs as Hs; subst c'; cbn [c_stack]. apply (based_top lim t); auto.
    - destruct rest as [|p rest]; [discriminate Hs|]. injection Hs as Hs. subst c'.
      unfold set_fee. destruct (negb _); [rewrite Hst; exact H|].
      destruct (Nat.eqb _ _).
      { cbn [c_stack]. apply (based_top lim p (set_payers p (set_portion (f_payers p) (c_nextpid c) ad n)) rest); auto. }
      destruct (multiple_payers pol); [|rewrite Hst; exact H].
      cbn [c_stack]. apply (based_top lim t); auto.
    - destruct rest as [|p rest]; [discriminate Hs|]. injection Hs as Hs. subst c'.
      unfold enter_readonly. destruct (f_readonly t); [rewrite Hst; exact H|].
      cbn [c_stack]. apply (based_top lim t); auto.
    - assert (Hc : c' = push c t s l).
      { destruct rest; destruct s; try discriminate Hs; injection Hs as Hs; auto. }
      subst c'. unfold push. cbn [c_stack]. rewrite Hst. exact H.
    - destruct rest as [|p rest]; [discriminate Hs|]. injection Hs as Hs. subst c'.
      unfold pop. cbn [deduct f_readonly].
      destruct (f_readonly t); [exact H|].
      destruct st; cbn [c_stack]; [exact H|]. apply (based_top lim p); auto.
    - destruct (clean_up (t :: rest) (c_world c)) as [[wr st]|] eqn:Hc; [|discriminate Hs].
      injection Hs as Hs. subst c'. cbn [c_stack]. exact (based_clean lim _ _ _ _ H Hc).
  Qed.

  Lemma based_run : forall lim pol l c c',
    based lim (c_stack c) -> run pol c l = Some c' -> based lim (c_stack c').
  Proof.
    induction l as [|a l IH]; intros c c' H Hr; cbn in Hr.
    - injection Hr as Hr. subst. exact H.
    - destruct (step pol c a) as [c1|] eqn:Hs; [|discriminate Hr].
      apply (IH c1 c'); auto. eapply based_step; eassumption.
  Qed.
End Trace.
