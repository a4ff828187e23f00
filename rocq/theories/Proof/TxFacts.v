(** What [DoExecute] leaves behind. *)
Require Import ZArith List Bool Lia.
From Verif.Model Require Import CallFrames Deposits FeePayers TxExecute.
From Verif.Spec Require Import CallSpec FeeSpec TxSpec.
From Verif.Proof Require Import CallFacts FeeFacts FeeFrames FeeTx TxShape.
From Verif.Props Require Import P_CallFrames.
Import ListNotations.
Open Scope Z_scope.

Section Facts.
  Variables A R E M : Type.
  Notation world := (world A R).
  Notation frame := (frame world E M A).
  Notation cfg := (cfg world E M A).
  Notation action := (action world E M A).
  Notation node := (node world E M A).

  Definition baseframe (lim k : Z) : frame := mkFrame 1 false false None k lim [] [] [].
  Definition basecfg (w : world) (lim k : Z) : cfg := mkCfg w [baseframe lim k] 2 0.

  Lemma deduct_base_step : forall pol (c : cfg) n, List.length (c_stack c) = 1%nat ->
    step pol c (ASpend n) = Some (deduct_base c n) /\ List.length (c_stack (deduct_base c n)) = 1%nat.
  Proof.
    intros pol c n H. unfold step, deduct_base. destruct (c_stack c) as [|f [|g r]]; try discriminate H.
    split; reflexivity.
  Qed.

  (** The frame of the call when its body has run. *)
  Lemma frame_of_call : forall pol w lim k rm (b : bool) (body : list node) (c2 : cfg),
    tree b body ->
    run pol (push (basecfg w lim k) (baseframe lim k) true rm) (flat_map actions body) = Some c2 ->
    exists xs g ps, c_stack c2 = xs ++ g :: [set_payers (baseframe lim k) ps] /\
      f_used g = fold_left (spending rm) body 0 /\ f_limit g = rm.
  Proof.
    intros pol w lim k rm b body c2 T H.
    pose proof (inside_tree world E M A pol b body T (push (basecfg w lim k) (baseframe lim k) true rm)
      (mkFrame 2 true false (Some w) 0 rm [] [] []) [baseframe lim k] c2 eq_refl ltac:(discriminate) ltac:(cbn; lia) H) as Q.
    destruct Q as (Q1 & Q2 & xs & g & rest' & Q3 & Q3' & Q4 & Q5 & Q6 & Q7 & Q8 & Q9 & Q10 & Q11 & Q12 & Q13 & Q14).
    unfold below in Q10. cbn [f_fid Nat.eqb] in Q10. cbn in Q10.
    destruct Q10 as (ps & -> & _). exists xs, g, ps. split; [exact Q3|]. split; [exact Q9|]. exact Q7.
  Qed.

  Definition closes (en : ending) : option action :=
    match en with Returned u k => Some (AReturn u k) | Timeout => Some AAbort | Critical => None end.

  Lemma call_done : forall pol (w : world) lim d i body en st (c : cfg),
    d <= lim -> d + i <= lim ->
    call_part pol (basecfg w lim (d + i)) body en = XDone st c ->
    exists (b : list node) n,
      (match en with
       | Returned u k => n = Called true (lim - d - i) b u k /\ st = match k with None => None | Some k => Some (Failed k) end
       | Timeout => n = Cut (lim - d - i) b /\ st = Some TimedOut
       | Critical => False
       end) /\
      tree (is_timeout en) b /\ flat_map actions b = body /\
      exists base, c_stack c = [base] /\ c_world c = apply_all (writes n) w /\
        f_logs base = events n /\ f_msgs base = messages n /\
        collected A (f_payers base) (first_sharing (fee_sharing pol && multiple_payers pol) n)
          (if fee_sharing pol then fold_left agreement b None else None) /\
        f_used base = match en with
                      | Returned u _ => d + i + used_by (lim - d - i) b u
                      | _ => lim
                      end.
  Proof.
    intros pol w lim d i body en st c Hd Hi H. unfold call_part in H.
    change (base_available (basecfg w lim (d + i))) with (lim - (d + i)) in H.
    set (rm := lim - (d + i)) in *.
    assert (Erm : lim - d - i = rm) by (unfold rm; lia). rewrite Erm.
    change (step pol (basecfg w lim (d + i)) (ACall true rm))
      with (Some (push (basecfg w lim (d + i)) (baseframe lim (d + i)) true rm)) in H.
    set (c1 := push (basecfg w lim (d + i)) (baseframe lim (d + i)) true rm) in *.
    cbv beta iota in H.
    destruct (run_call pol c1 body) as [c2|] eqn:Hrc; [|discriminate H].
    apply run_call_run in Hrc. destruct Hrc as [Hrun Hst].
    assert (D1 : step pol (new_context w lim false) (ASpend d) = Some (basecfg w lim d)).
    { cbn. unfold deduct. cbn [f_used f_limit f_fid f_sync f_readonly f_snap f_logs f_msgs f_payers].
      destruct (Z.ltb_spec lim (0 + d)); [lia|]. reflexivity. }
    assert (D2 : step pol (basecfg w lim d) (ASpend i) = Some (basecfg w lim (d + i))).
    { cbn. unfold deduct, baseframe. cbn [f_used f_limit f_fid f_sync f_readonly f_snap f_logs f_msgs f_payers].
      destruct (Z.ltb_spec lim (d + i)); [lia|]. reflexivity. }
    assert (H1 : run pol (new_context w lim false) [ASpend d; ASpend i; ACall true rm] = Some c1).
    { cbn [run]. rewrite D1, D2. reflexivity. }
    (* the end of the run *)
    assert (K : exists z spends c3, closes en = Some z /\ step pol c2 z = Some c3 /\
        List.length (c_stack c3) = 1%nat /\ run pol c3 (map ASpend spends) = Some c /\
        List.length (c_stack c) = 1%nat /\
        match en with
        | Returned u k => (exists g x, c_stack c2 = [g; x] /\ spends = [f_used (deduct g u)] /\
                           c = deduct_base c3 (f_used (deduct g u))) /\
                          st = match k with None => None | Some k => Some (Failed k) end
        | Timeout => st = Some TimedOut /\ exists c4 x, c_stack c4 = [x] /\
                     (exists y, c_stack c3 = [y] /\ f_limit x = f_limit y) /\ c = deduct_base c4 (available x)
        | Critical => False
        end).
    { destruct en as [u k| |]; [| |discriminate].
      - destruct (c_stack c2) as [|g [|x [|y r]]] eqn:Hs2; try discriminate H.
        destruct (step pol c2 (AReturn u k)) as [c3|] eqn:Hs3; [|discriminate].
        injection H as <- <-.
        assert (L3 : List.length (c_stack c3) = 1%nat).
        { unfold step in Hs3. rewrite Hs2 in Hs3. injection Hs3 as <-. unfold pop.
          destruct (f_readonly (deduct g u)); [reflexivity|]. destruct k; reflexivity. }
        destruct (deduct_base_step pol c3 (f_used (deduct g u)) L3) as [E1 E2].
        exists (AReturn u k), [f_used (deduct g u)], c3. split; [reflexivity|]. split; [solve [exact Hs3|reflexivity]|]. split; [exact L3|].
        cbn [map run]. split; [rewrite E1; reflexivity|]. split; [exact E2|]. split; [|reflexivity]. exists g, x. auto.
      - destruct (nth_error (rev (c_stack c2)) 1) as [g|]; [|discriminate].
        destruct (step pol c2 AAbort) as [c3|] eqn:Hs3; [|discriminate].
        destruct (c_stack c3) as [|x [|y r]] eqn:Hx; try discriminate H. injection H as <- <-.
        assert (L3 : List.length (c_stack c3) = 1%nat) by (rewrite Hx; reflexivity).
        destruct (deduct_base_step pol c3 (f_used g) L3) as [E1 E2].
        destruct (deduct_base_step pol _ (base_available (deduct_base c3 (f_used g))) E2) as [E3 E4].
        exists AAbort, [f_used g; base_available (deduct_base c3 (f_used g))], c3.
        split; [reflexivity|]. split; [solve [exact Hs3|reflexivity]|]. split; [exact L3|].
        cbn [map run]. split; [rewrite E1, E3; reflexivity|]. split; [exact E4|]. split; [reflexivity|].
        exists (deduct_base c3 (f_used g)), (deduct x (f_used g)).
        unfold deduct_base at 1 3 4. rewrite Hx. cbn [c_stack].
        split; [reflexivity|]. split; [exists x; split; reflexivity|]. unfold deduct_base. rewrite Hx. reflexivity. }
    destruct K as (z & spends & c3 & Kz & Ks & Kl3 & Kr & Kl & Ken).
    assert (Hall : run pol (new_context w lim false)
       (ASpend d :: ASpend i :: ACall true rm :: body ++ z :: map ASpend spends) = Some c).
    { change (ASpend d :: ASpend i :: ACall true rm :: body ++ z :: map ASpend spends)
        with ([ASpend d; ASpend i; ACall true rm] ++ body ++ z :: map ASpend spends).
      rewrite run_app, H1, run_app, Hrun. cbn [run]. rewrite Ks. exact Kr. }
    destruct (C62_transaction world E M A pol w lim _ c Hall Kl) as (t & base & T & Ht & Tw & Ts & Te & Tm).
    assert (Hz : closing A R E M z) by (destruct en; try discriminate Kz; injection Kz as <-; exact Logic.I).
    assert (Hall2 := Hall). rewrite <- Ht in Hall2.
    destruct (tx_shape A R E M pol t w lim d i rm body z spends c c1 T Hz Ht Hall2 H1 Hst)
      as (b & n & post & -> & Hm & Hb & Hn & Hp & Hpost).
    destruct (base_payers world E M A pol w lim [Spent d; Spent i] n post c T eq_refl Hn Hp Hall2)
      as (base' & B1 & B2).
    rewrite Ts in B1. injection B1 as <-.
    assert (Pw : flat_map writes post = [] /\ flat_map events post = [] /\ flat_map messages post = []).
    { clear - Hpost. revert post Hpost. induction spends as [|s l IH]; intros post H.
      - destruct post as [|x p]; [auto|]. exfalso. cbn in H. apply app_eq_nil in H. destruct H as [H _]. destruct x; discriminate H.
      - destruct post as [|x p]; [discriminate H|]. cbn [flat_map map] in H.
        destruct x; cbn [actions app] in H; try discriminate H. injection H as _ H.
        destruct (IH p H) as (I1 & I2 & I3). cbn. auto. }
    destruct Pw as (P1 & P2 & P3).
    cbn [flat_map writes events messages app] in Tw, Te, Tm. rewrite P1, app_nil_r in Tw.
    rewrite P2, app_nil_r in Te. rewrite P3, app_nil_r in Tm.
    exists b, n. rewrite <- Hb in Hrun.
    destruct en as [u k| |]; [| |destruct Ken].
    - injection Kz as <-. destruct Hm as [-> Tb]. destruct Ken as [(g & x & G1 & G2 & G3) ->].
      split; [auto|]. split; [exact Tb|]. split; [exact Hb|].
      exists base. split; [exact Ts|]. split; [exact Tw|]. split; [exact Te|]. split; [exact Tm|]. split; [exact B2|].
      destruct (frame_of_call pol w lim (d + i) rm false b c2 Tb Hrun) as (xs & g' & ps & F1 & F2 & F3).
      rewrite G1 in F1.
      assert (xs = []) by (destruct xs as [|x1 [|x2 xs]]; [reflexivity|discriminate F1|destruct xs; discriminate F1]).
      subst xs. cbn [app] in F1. injection F1 as -> ->.
      unfold step in Ks. rewrite G1 in Ks. injection Ks as <-.
      assert (U : f_used (deduct g' u) = used_by rm b u).
      { rewrite deduct_used, F2, F3. reflexivity. }
      assert (V : used_by rm b u <= rm) by (unfold used_by; lia).
      clearbody rm. clear - G3 Ts U V Erm. rewrite U in G3. subst c. unfold deduct_base, pop in Ts.
      assert (W : forall ps' l m, f_used (deduct (mkFrame 1 false false None (d + i) lim l m ps' : frame) (used_by rm b u)) =
         d + i + used_by rm b u).
      { intros ps' l m. rewrite deduct_used. cbn [f_used f_limit]. lia. }
      destruct (f_readonly (deduct g' u)).
      + cbn [c_stack] in Ts. injection Ts as <-. apply W.
      + destruct k; cbn [c_stack] in Ts; injection Ts as <-; apply W.
    - injection Kz as <-. destruct Hm as [-> Tb]. destruct Ken as (-> & c4 & x & X1 & (y & Y1 & Y2) & X3).
      split; [auto|]. split; [exact Tb|]. split; [exact Hb|].
      exists base. split; [exact Ts|]. split; [exact Tw|]. split; [exact Te|]. split; [exact Tm|]. split; [exact B2|].
      destruct (frame_of_call pol w lim (d + i) rm true b c2 Tb Hrun) as (xs & g' & ps & F1 & F2 & F3).
      subst c. unfold deduct_base in Ts. rewrite X1 in Ts. cbn [c_stack] in Ts. injection Ts as <-.
      rewrite deduct_used. unfold available.
      assert (L : f_limit y = lim).
      { unfold step in Ks. rewrite F1 in Ks.
        assert (Z0 : forall l (wx : world) wr stt, clean_up (l ++ [set_payers (baseframe lim (d + i)) ps]) wx = Some (wr, stt) ->
          exists l', stt = l' ++ [set_payers (baseframe lim (d + i)) ps]).
        { clear. induction l as [|f l IH]; intros wx wr stt H; cbn in H; [discriminate|].
          destruct (f_sync f); [injection H as _ <-; exists l; reflexivity|]. exact (IH _ _ _ H). }
        destruct (xs ++ g' :: [set_payers (baseframe lim (d + i)) ps]) as [|f0 r0] eqn:Hx; [discriminate|].
        rewrite <- Hx in Ks. change (g' :: [set_payers (baseframe lim (d + i)) ps]) with ([g'] ++ [set_payers (baseframe lim (d + i)) ps]) in Ks.
        rewrite app_assoc in Ks.
        destruct (clean_up ((xs ++ [g']) ++ [set_payers (baseframe lim (d + i)) ps]) (c_world c2)) as [[wr stt]|] eqn:Hcl; [|discriminate].
        destruct (Z0 _ _ _ _ Hcl) as (l' & ->). injection Ks as <-. cbn [c_stack] in Y1.
        destruct l' as [|l1 [|l2 l']]; [injection Y1 as <-; reflexivity|discriminate|destruct l'; discriminate]. }
      rewrite L in Y2. lia.
  Qed.
End Facts.
