(** A whole transaction: the payers of its base frame, and what they pay. *)
Require Import ZArith List Bool Lia.
From Verif.Model Require Import CallFrames Deposits FeePayers.
From Verif.Spec Require Import CallSpec FeeSpec.
From Verif.Proof Require Import FeeFacts FeeFrames.
Import ListNotations.
Open Scope Z_scope.

Section Tx.
  Variables W E M A : Type.
  Notation frame := (frame W E M A).
  Notation cfg := (cfg W E M A).
  Notation node := (node W E M A).
  Notation payer := (payer A).
  Variable pol : policy.

  Lemma tree_in : forall b (l : list node), tree b l -> forall n, In n l ->
    match n with
    | Called _ _ body _ _ => tree false body
    | Cut _ body => tree true body
    | Unfinished _ _ => b = true
    | _ => True
    end.
  Proof.
    intros b l T. induction T; intros x Hx; cbn [In] in Hx; try (destruct Hx as [<-|Hx]; auto; fail).
    { destruct Hx. }
    all: destruct Hx as [Hx|Hx]; [subst x; solve [exact Logic.I|assumption|reflexivity]|solve [exact (IHT x Hx)|exact (IHT2 x Hx)|destruct Hx]].
  Qed.

  Lemma base_leaves : forall (l : list node) (c c' : cfg) f,
    forallb (fun n => negb (is_call n)) l = true ->
    c_stack c = [f] -> run pol c (flat_map actions l) = Some c' ->
    exists f', c_stack c' = [f'] /\ f_payers f' = f_payers f /\ c_nextfid c' = c_nextfid c /\
      c_nextpid c' = c_nextpid c /\ f_readonly f' = f_readonly f /\ f_limit f' = f_limit f.
  Proof.
    induction l as [|n l IH]; intros c c' f Hl Hc H.
    - cbn in H. injection H as <-. exists f. auto 10.
    - cbn [forallb] in Hl. apply andb_true_iff in Hl. destruct Hl as [Hn Hl].
      cbn [flat_map] in H. rewrite run_app in H.
      assert (X : forall c1 f1, run pol c (actions n) = Some c1 -> c_stack c1 = [f1] ->
         f_payers f1 = f_payers f -> c_nextfid c1 = c_nextfid c -> c_nextpid c1 = c_nextpid c ->
         f_readonly f1 = f_readonly f -> f_limit f1 = f_limit f ->
         exists f', c_stack c' = [f'] /\ f_payers f' = f_payers f /\ c_nextfid c' = c_nextfid c /\
           c_nextpid c' = c_nextpid c /\ f_readonly f' = f_readonly f /\ f_limit f' = f_limit f).
      { intros c1 f1 H1 H2 H3 H4 H5 H6 H7. rewrite H1 in H.
        destruct (IH c1 c' f1 Hl H2 H) as (f' & A1 & A2 & A3 & A4 & A5 & A6). exists f'.
        split; [exact A1|]. split; [congruence|]. split; [congruence|]. split; [congruence|]. split; congruence. }
      destruct n as [g|e|m|k|a q| |s lim body u st|lim body|lim body]; try discriminate Hn.
      + cbn [actions run] in *. unfold step in *. rewrite Hc in *. destruct (f_readonly f) eqn:Hro.
        * apply (X c f); auto.
        * eapply X; [reflexivity|cbn; reflexivity| | | | |]; auto.
      + cbn [actions run] in *. unfold step in *. rewrite Hc in *.
        eapply X; [reflexivity|cbn; reflexivity| | | | |]; try reflexivity; unfold add_log; destruct (f_readonly f) eqn:Y; cbn; auto.
      + cbn [actions run] in *. unfold step in *. rewrite Hc in *.
        eapply X; [reflexivity|cbn; reflexivity| | | | |]; try reflexivity; unfold add_msg; destruct (f_readonly f) eqn:Y; cbn; auto.
      + cbn [actions run] in *. unfold step in *. rewrite Hc in *.
        eapply X; [reflexivity|cbn; reflexivity| | | | |]; reflexivity.
      + exfalso. cbn [actions run] in H. unfold step in H. rewrite Hc in H. discriminate.
      + exfalso. cbn [actions run] in H. unfold step in H. rewrite Hc in H. discriminate.
  Qed.

  (** The payers a transaction ends with. *)
  Definition collected (ps : list (option payer)) (cs : list (call A)) (first : option (A * Z)) : Prop :=
    exists L own,
      (ps = map Some L ++ [own] \/ (ps = [] /\ L = [] /\ own = None)) /\
      rep A L cs /\ NoDup (map p_id L) /\ own_is A own first.

  Theorem base_payers : forall w limit pre n post (c : cfg),
    tree false (pre ++ n :: post) ->
    forallb (fun n => negb (is_call n)) pre = true -> is_call n = true ->
    forallb (fun n => negb (is_call n)) post = true ->
    run pol (new_context w limit false) (flat_map actions (pre ++ n :: post)) = Some c ->
    exists base, c_stack c = [base] /\
      collected (f_payers base) (first_sharing (fee_sharing pol && multiple_payers pol) n)
        (if fee_sharing pol then fold_left agreement (body_of n) None else None).
  Proof.
    intros w limit pre n post c T Hpre Hn Hpost H.
    rewrite flat_map_app, run_app in H. cbn [flat_map] in H.
    destruct (run pol (new_context w limit false) (flat_map actions pre)) as [c0|] eqn:H0; [|discriminate].
    set (f0 := mkFrame (W:=W) (E:=E) (M:=M) (A:=A) 1 false false None 0 limit [] [] []).
    destruct (base_leaves pre (new_context w limit false) c0 f0 Hpre eq_refl H0) as (f & A1 & A2 & A3 & A4 & A5 & A6).
    cbn in A2, A3, A4, A5, A6.
    rewrite run_app in H.
    destruct (run pol c0 (actions n)) as [c3|] eqn:H3; [|discriminate].
    pose proof (tree_in false _ T n ltac:(apply in_or_app; right; left; reflexivity)) as Tn.
    assert (X : forall g, c_stack c3 = [g] ->
       collected (f_payers g) (first_sharing (fee_sharing pol && multiple_payers pol) n)
        (if fee_sharing pol then fold_left agreement (body_of n) None else None) ->
       exists base, c_stack c = [base] /\
         collected (f_payers base) (first_sharing (fee_sharing pol && multiple_payers pol) n)
        (if fee_sharing pol then fold_left agreement (body_of n) None else None)).
    { intros g G1 G2. destruct (base_leaves post c3 c g Hpost G1 H) as (f' & B1 & B2 & _).
      exists f'. split; [exact B1|]. rewrite B2. exact G2. }
    assert (Y : forall sync lim (body : list node) c2, run pol (push c0 f sync lim) (flat_map actions body) = Some c2 ->
       forall b, tree b body ->
       exists xs g base own L,
         c_stack c2 = xs ++ g :: [base] /\ (b = false -> xs = []) /\ Forall (fun x => f_sync x = false) xs /\
         f_sync g = sync /\ f_limit g = lim /\ f_used g = fold_left (spending lim) body 0 /\
         f_readonly g = existsb is_readonly body /\
         f_readonly base = false /\
         removelast (f_payers base) = [] /\ own_of (f_payers base) = own /\
         own_is A own (if fee_sharing pol then fold_left agreement body None else None) /\
         (f_readonly g = false -> own_of (f_payers g) = None /\
           removelast (f_payers g) = map Some L /\
           rep A L (flat_map (sharing (fee_sharing pol && multiple_payers pol)) body) /\ NoDup (map p_id L))).
    { intros sync lim body c2 Hb b Tb.
      assert (Hst : c_stack (push c0 f sync lim) = mkFrame (c_nextfid c0) sync (f_readonly f)
        (if f_readonly f then None else Some (c_world c0)) 0 lim [] [] [] :: [f]).
      { unfold push. cbn. rewrite A1. reflexivity. }
      pose proof (inside_tree W E M A pol b body Tb _ _ [f] c2 Hst ltac:(discriminate) ltac:(cbn; lia) Hb) as Q.
      destruct Q as (Q1 & Q2 & xs & g & rest' & Q3 & Q3' & Q4 & Q5 & Q6 & Q7 & Q8 & Q9 & Q10 & Q11 & Q12 & Q13 & Q14).
      unfold below in Q10. cbn [f_fid] in Q10, Q5, Q11. rewrite A3 in *. cbn [Nat.eqb] in Q10.
      destruct Q10 as (ps & -> & Eps). cbn [f_payers f_sync f_limit f_used f_readonly] in *.
      rewrite A2 in Eps. cbn [removelast] in Eps.
      assert (Hslot : slot W E M A g [set_payers f ps] = own_of ps).
      { unfold slot. rewrite Q5. reflexivity. }
      destruct (f_readonly g) eqn:Hrg.
      - exists xs, g, (set_payers f ps), (own_of ps), [].
        split; [exact Q3|]. split; [exact Q3'|]. split; [exact Q4|]. split; [exact Q6|]. split; [exact Q7|].
        split; [exact Q9|]. split; [rewrite A5 in Q8; cbn in Q8; congruence|]. split; [exact A5|].
        split; [exact Eps|]. split; [reflexivity|]. split; [|intro Xf; rewrite Hrg in Xf; discriminate Xf].
        specialize (Q12 None). rewrite Hslot in Q12.
        assert (Z0 : slot W E M A (mkFrame (W:=W) (E:=E) (M:=M) (A:=A) 2 sync (f_readonly f)
          (if f_readonly f then None else Some (c_world c0)) 0 lim [] [] []) [f] = None).
        { unfold slot. cbn [f_fid Nat.eqb]. rewrite A2. reflexivity. }
        rewrite Z0 in Q12. specialize (Q12 Logic.I). unfold heard in Q12. cbn [f_fid Nat.eqb orb] in Q12.
        rewrite andb_true_r in Q12. exact Q12.
      - destruct (Q14 eq_refl) as (L & E1 & E2 & E3 & E4 & E5 & E6). cbn [removelast app] in E1.
        exists xs, g, (set_payers f ps), (own_of ps), L.
        split; [exact Q3|]. split; [exact Q3'|]. split; [exact Q4|]. split; [exact Q6|]. split; [exact Q7|].
        split; [exact Q9|]. split; [rewrite A5 in Q8; cbn in Q8; congruence|]. split; [exact A5|].
        split; [exact Eps|]. split; [reflexivity|]. split.
        + specialize (Q12 None). rewrite Hslot in Q12.
          assert (Z0 : slot W E M A (mkFrame (W:=W) (E:=E) (M:=M) (A:=A) 2 sync (f_readonly f)
            (if f_readonly f then None else Some (c_world c0)) 0 lim [] [] []) [f] = None).
          { unfold slot. cbn [f_fid Nat.eqb]. rewrite A2. reflexivity. }
          rewrite Z0 in Q12. specialize (Q12 Logic.I). unfold heard in Q12. cbn [f_fid Nat.eqb orb] in Q12.
          rewrite andb_true_r in Q12. exact Q12.
        + intros _. split; [apply Q11; reflexivity|]. split; [exact E1|]. split; [exact E3|exact E5]. }
    assert (Z : forall ps own ag, removelast ps = [] -> own_of ps = own -> own_is A own ag ->
       collected ps [] ag).
    { intros ps own ag R1 R2 R3. exists [], own. split; [|split; [constructor|split; [constructor|exact R3]]].
      destruct ps as [|p ps]; [right|left].
      - split; [reflexivity|]. split; [reflexivity|]. rewrite <- R2. reflexivity.
      - rewrite (app_removelast_last None (l := p :: ps)) by discriminate. rewrite R1.
        change (last (p :: ps) None) with (own_of (p :: ps)). rewrite R2. reflexivity. }
    destruct n as [g|e|m|k|a q| |sync lim body u st|lim body|lim body]; try discriminate Hn; try discriminate Tn.
    - cbn [actions run app] in H3.
      destruct (step pol c0 (ACall sync lim)) as [c1|] eqn:Hs; [|discriminate].
      apply (step_call W E M A pol c0 f []) in Hs; [|exact A1]. subst c1.
      rewrite run_app in H3. destruct (run pol (push c0 f sync lim) (flat_map actions body)) as [c2|] eqn:Hb; [|discriminate].
      destruct (Y sync lim body c2 Hb false Tn) as
        (xs & g & base & own & L & Q3 & Q3' & Q4 & Q5 & Q6 & Q7 & Q8 & Q9 & Q10 & Q11 & Q12 & Q13).
      specialize (Q3' eq_refl). subst xs. cbn [app] in Q3.
      cbn [run] in H3. unfold step in H3. rewrite Q3 in H3.
      destruct (pop c2 (deduct g u) base [] match st with Some _ => false | None => true end) as [w3 st3 n3 p3] eqn:Hpop.
      injection H3 as <-. unfold pop in Hpop. change (f_readonly (deduct g u)) with (f_readonly g) in Hpop.
      cbn [body_of first_sharing] in *.
      destruct (f_readonly g) eqn:Hrg.
      + injection Hpop as <- <- <- <-. apply (X base); [reflexivity|].
        rewrite <- Q8. destruct st; apply (Z _ own); auto.
      + destruct st as [code|].
        * injection Hpop as <- <- <- <-. apply (X base); [reflexivity|]. apply (Z _ own); auto.
        * destruct (Q13 eq_refl) as (E1 & E2 & E3 & E4).
          injection Hpop as <- <- <- <-. eapply X; [reflexivity|]. rewrite <- Q8. cbn [f_payers].
          destruct (merge_payers A (f_payers g) L _ (f_used (deduct g u)) None E2 E3 ltac:(rewrite E1; exact Logic.I))
            as (L' & M1 & M2 & M3).
          exists L', own. unfold apply_payers. change (f_payers (deduct g u)) with (f_payers g).
          change (if f_limit g <? f_used g + u then f_limit g else f_used g + u) with (f_used (deduct g u)). rewrite M1, Q10, Q11. cbn [app]. split; [left; reflexivity|]. split.
          { rewrite <- (app_nil_r L'). constructor; [|constructor].
            replace (used_by lim body u) with (f_used (deduct g u)); [exact M2|].
            rewrite deduct_used, Q6, Q7. reflexivity. }
          split; [|exact Q12]. rewrite M3, E1. cbn [oid]. rewrite app_nil_r. exact E4.
    - cbn [actions run app] in H3.
      destruct (step pol c0 (ACall true lim)) as [c1|] eqn:Hs; [|discriminate].
      apply (step_call W E M A pol c0 f []) in Hs; [|exact A1]. subst c1.
      rewrite run_app in H3. destruct (run pol (push c0 f true lim) (flat_map actions body)) as [c2|] eqn:Hb; [|discriminate].
      destruct (Y true lim body c2 Hb true Tn) as
        (xs & g & base & own & L & Q3 & Q3' & Q4 & Q5 & Q6 & Q7 & Q8 & Q9 & Q10 & Q11 & Q12 & Q13).
      cbn [run] in H3. destruct (step pol c2 AAbort) as [c4|] eqn:Ha; [|discriminate]. injection H3 as <-.
      unfold step in Ha. rewrite Q3 in Ha.
      destruct (clean_skip W E M A xs g [base] (c_world c2) Q4 Q5) as (w' & Hw). rewrite Hw in Ha.
      apply (X base).
      { destruct xs; cbn [app] in Ha; injection Ha as <-; reflexivity. }
      cbn [first_sharing body_of]. apply (Z _ own); auto.
  Qed.

  (** *** Paying *)
  Variable eqb : A -> A -> bool.
  Variable is_system : A -> bool.
  Variables height price : Z.

  Lemma adopt_none : forall (l : list payer), map (adopt A None) l = l.
  Proof.
    induction l as [|p l IH]; [reflexivity|]. cbn [map]. rewrite IH. f_equal.
    unfold adopt. destruct p as [i a q s b [par|]]; reflexivity.
  Qed.

  Theorem redeem_settles : forall ps cs first steps s s' pd redeemed,
    collected ps cs first ->
    redeem eqb is_system height price ps steps s = (s', pd, redeemed) ->
    let (s2, bills) := settle_tx (pay_for eqb is_system height price) cs first steps s in
    s' = s2 /\ Forall2 (same_line A) pd bills /\ redeemed = total bills.
  Proof.
    intros ps cs first steps s s' pd redeemed (L & own & Hps & HR & Hnd & Hown) H.
    assert (Hps' : redeem eqb is_system height price (map Some L ++ [own]) steps s = (s', pd, redeemed)).
    { destruct Hps as [->|(-> & -> & ->)]; [exact H|].
      unfold redeem in *. cbn in *. exact H. }
    clear H Hps ps. unfold redeem in Hps'.
    pose proof (proj1 (rep_pays A eqb is_system height price) L cs HR Hnd None ltac:(discriminate) 1%nat [own] steps s) as F.
    unfold follows in F. unfold settle_tx.
    destruct (settle_all (pay_for eqb is_system height price) cs s) as [[[s1 bills] due] unpaid].
    destruct F as (pd1 & F1 & F2). rewrite adopt_none in F2. cbn [dlg] in F2.
    rewrite app_length, map_length in Hps'. change (List.length [own]) with 1%nat in Hps'.
    rewrite F2 in Hps'. clear F2.
    destruct own as [own|].
    - destruct first as [[a q]|]; [|destruct Hown]. destruct Hown as [Hown Hq].
      rewrite pay_all_cons in Hps'. cbv zeta in Hps'. rewrite Hown in Hps'.
      unfold ensure_steps, calc_steps in Hps'. cbn [p_steps p_id p_addr p_portion p_parent steps_of] in Hps'.
      destruct (pay_for eqb is_system height price s1 a ((steps - total bills) * q / 100)) as [[s2 paid] fee].
      cbn [FeePayers.pay_all] in Hps'. injection Hps' as <- <- <-.
      split; [reflexivity|]. split.
      + apply Forall2_app; [exact F1|]. constructor; [|constructor]. repeat split.
      + rewrite total_app. cbn. lia.
    - destruct first as [[a q]|]; [destruct Hown|]. cbn in Hps'. injection Hps' as <- <- <-.
      split; [reflexivity|]. split; [rewrite app_nil_r; exact F1|]. lia.
  Qed.
End Tx.
