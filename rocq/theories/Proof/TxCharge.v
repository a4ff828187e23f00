(** [DoExecute] as a whole, and the loop which charges the fee. *)
Require Import ZArith List Bool Lia.
From Verif.Model Require Import CallFrames Deposits FeePayers TxExecute.
From Verif.Spec Require Import CallSpec DepositSpec FeeSpec TxSpec.
From Verif.Proof Require Import CallFacts FeeFacts FeeFrames FeeTx TxShape TxFacts.
Import ListNotations.
Open Scope Z_scope.

Section Charge.
  Variables A R E M : Type.
  Notation world := (world A R).
  Notation frame := (frame world E M A).
  Notation cfg := (cfg world E M A).
  Notation action := (action world E M A).
  Notation node := (node world E M A).

  Lemma limit_eq : forall (e : env A R) (t : tx A),
    (if t_patch t || (e_invoke e <? t_limit t) then e_invoke e else t_limit t) = step_limit e t.
  Proof.
    intros e t. unfold step_limit. destruct (t_patch t); [reflexivity|]. cbn [orb].
    destruct (Z.ltb_spec (e_invoke e) (t_limit t)); lia.
  Qed.

  Lemma base_after : forall (w : world) lim k n,
    deduct_base (basecfg A R E M w lim k) n = basecfg A R E M w lim (Z.min lim (k + n)).
  Proof.
    intros w lim k n. unfold deduct_base, basecfg. cbn [c_stack c_world c_nextfid c_nextpid].
    unfold deduct, baseframe. cbn. destruct (Z.ltb_spec lim (k + n)).
    - rewrite Z.min_l by lia. reflexivity.
    - rewrite Z.min_r by lia. reflexivity.
  Qed.

  Theorem exec_done : forall (e : env A R) (t : tx A) (w : world) body en st (c : cfg),
    do_execute e t w (step_limit e t) body en = XDone st c ->
    st = verdict e t w en /\
    exists (b : list node) base,
      (refusal e t w = None -> did en body b /\ en <> Critical) /\
      c_stack c = [base] /\
      c_world c = after_call e t w b en /\
      f_logs base = flat_map events (happened e t w b en) /\
      f_msgs base = flat_map messages (happened e t w b en) /\
      collected A (f_payers base) (sharers e t w b en) (first_payer e t w b) /\
      f_used base = steps_used e t w b en.
  Proof.
    intros e t w body en st c H. unfold do_execute in H.
    unfold verdict, after_call, sharers, first_payer, steps_used, happened.
    set (lim := step_limit e t) in *.
    assert (N : forall s k, refusal e t w = Some s ->
       Some s = st -> basecfg A R E M w lim k = c ->
       k = match s with OutOfStep => lim | Denied => e_default e + e_input e | _ => 0 end ->
       st = match refusal e t w with
        | Some s => Some s
        | None => match en with Returned _ None => None | Returned _ (Some k) => Some (Failed k) | _ => Some TimedOut end
        end /\
       exists (b : list node) base,
      (refusal e t w = None -> did en body b /\ en <> Critical) /\
      c_stack c = [base] /\
      c_world c = apply_all (flat_map writes match refusal e t w with Some _ => [] | None => [first_call e t b en] end) w /\
      f_logs base = flat_map events match refusal e t w with Some _ => [] | None => [first_call e t b en] end /\
      f_msgs base = flat_map messages match refusal e t w with Some _ => [] | None => [first_call e t b en] end /\
      collected A (f_payers base) (flat_map (first_sharing (fee_sharing (e_pol e) && multiple_payers (e_pol e)))
         match refusal e t w with Some _ => [] | None => [first_call e t b en] end)
        match refusal e t w with Some _ => None | None => if fee_sharing (e_pol e) then fold_left agreement b None else None end /\
      f_used base = match refusal e t w with
        | Some OutOfStep => lim
        | Some Denied => e_default e + e_input e
        | Some _ => 0
        | None => match en with
                  | Returned used _ => e_default e + e_input e + used_by (room e t) b used
                  | _ => lim
                  end
        end).
    { intros s k -> <- <- ->. split; [reflexivity|]. exists [], (baseframe A R E M lim
        match s with OutOfStep => lim | Denied => e_default e + e_input e | _ => 0 end).
      split; [discriminate|]. split; [reflexivity|]. split; [reflexivity|]. split; [reflexivity|]. split; [reflexivity|].
      split; [|destruct s; reflexivity]. exists [], None. split; [right; auto|]. split; [constructor|]. split; [constructor|exact Logic.I]. }
    unfold refusal in N at 1.
    destruct (negb (t_patch t) && (bal w (t_from t) <? e_price e * t_limit t + t_value t)) eqn:X1.
    { injection H as <- <-. apply (N OutOfBalance 0); reflexivity. }
    destruct (negb (t_patch t) && e_refuses e (t_to t) w) eqn:X2.
    { injection H as <- <-. apply (N EmptyDeposit 0); reflexivity. }
    change (new_context w lim false) with (basecfg A R E M w lim 0) in H.
    rewrite !base_after in H.
    change (enough (basecfg A R E M w lim 0) (e_default e)) with (negb (lim <? 0 + e_default e)) in H.
    rewrite negb_involutive in H. fold lim in N. change (0 + e_default e) with (e_default e) in H.
    destruct (Z.ltb_spec lim (e_default e)) as [Y1|Y1].
    { injection H as <- <-. apply (N OutOfStep (Z.min lim (e_default e))); try reflexivity. lia. }
    cbn [orb] in N.
    change (enough (basecfg A R E M w lim (Z.min lim (e_default e))) (e_input e))
      with (negb (lim <? Z.min lim (e_default e) + e_input e)) in H.
    rewrite negb_involutive in H. rewrite (Z.min_r lim (e_default e)) in H by lia.
    destruct (Z.ltb_spec lim (e_default e + e_input e)) as [Y2|Y2].
    { injection H as <- <-. apply (N OutOfStep (Z.min lim (e_default e + e_input e))); try reflexivity. lia. }
    rewrite (Z.min_r lim (e_default e + e_input e)) in H by lia.
    destruct (negb (t_patch t) && e_blocked e (t_from t) w) eqn:X3.
    { injection H as <- <-. apply (N Denied (e_default e + e_input e)); reflexivity. }
    clear N.
    assert (Rf : refusal e t w = None).
    { unfold refusal. rewrite X1, X2, X3. fold lim. destruct (Z.ltb_spec lim (e_default e)); [lia|].
      destruct (Z.ltb_spec lim (e_default e + e_input e)); [lia|]. reflexivity. }
    rewrite Rf.
    destruct (call_done A R E M (e_pol e) w lim (e_default e) (e_input e) body en st c Y1 Y2 H)
      as (b & n & K1 & K2 & K3 & base & K4 & K5 & K6 & K7 & K8 & K9).
    assert (En : n = first_call e t b en /\ en <> Critical /\
       st = match en with Returned _ None => None | Returned _ (Some k) => Some (Failed k) | _ => Some TimedOut end).
    { unfold first_call, room. fold lim. destruct en as [u k| |]; [| |destruct K1].
      - destruct K1 as [-> ->]. split; [reflexivity|]. split; [discriminate|]. reflexivity.
      - destruct K1 as [-> ->]. split; [reflexivity|]. split; [discriminate|]. reflexivity. }
    destruct En as (-> & En & Est). split; [exact Est|].
    exists b, base. split; [intros _; split; [split; [exact K3|exact K2]|exact En]|].
    cbn [flat_map]. rewrite !app_nil_r.
    split; [exact K4|]. split; [exact K5|]. split; [exact K6|]. split; [exact K7|]. split; [exact K8|].
    rewrite K9. destruct en; reflexivity.
  Qed.

  Lemma after_failed : forall (e : env A R) (t : tx A) (w : world) (b : list node) en,
    verdict e t w en <> None -> after_call e t w b en = w.
  Proof.
    intros e t w b en H. unfold verdict, after_call, happened in *. destruct (refusal e t w); [reflexivity|].
    destruct en as [u [k|]| |]; try reflexivity. congruence.
  Qed.

  (** The loop: the three ways it can end. *)
  Definition ended (w w1 : world) (from : A) (used to_pay price : Z) (st : option status)
      (logs : list (paid_by A)) (x : charge A R) : Prop :=
    (x = mkCharge w1 st to_pay price (to_pay * price) logs /\ to_pay * price <= bal w1 from) \/
    (st = None /\ bal w1 from < to_pay * price /\ used * price <= bal w from /\
     x = mkCharge w (Some OutOfBalance) used price (used * price) []) \/
    (0 <= bal w from /\ x = mkCharge w (Some OutOfBalance) used 0 0 [] /\
     bal w1 from < to_pay * price /\
     (st = None -> bal w from < used * price)).

  Lemma loop_ends : forall (w w1 : world) from used shared st to_pay price logs,
    (shared = false -> logs = [] /\ to_pay = used /\ (st <> None -> w1 = w)) ->
    match charge_loop 3 w from used shared (mkCharge w1 st to_pay price (to_pay * price) logs) with
    | Some x => ended w w1 from used to_pay price st logs x
    | None => bal w from < 0
    end.
  Proof.
    intros w w1 from used shared st to_pay price logs Hs.
    cbn [charge_loop ch_world ch_status ch_to_pay ch_price ch_fee ch_logs].
    destruct (Z.ltb_spec (bal w1 from) (to_pay * price)) as [L1|L1].
    2:{ left. auto. }
    destruct st as [s|].
    - assert (X : (if shared then w else w1) = w /\ (if shared then used else to_pay) = used /\
                  (if shared then [] else logs) = []).
      { destruct shared; [auto|]. destruct (Hs eq_refl) as (H1 & H2 & H3). split; [apply H3; discriminate|auto]. }
      destruct X as (-> & -> & ->).
      cbn [ch_world ch_status ch_to_pay ch_price ch_fee ch_logs].
      destruct (Z.ltb_spec (bal w from) 0) as [L2|L2].
      + assert (X2 : (if shared then w else w) = w) by (destruct shared; reflexivity). rewrite X2.
        destruct (Z.ltb_spec (bal w from) 0); [exact L2|lia].
      + right. right. split; [exact L2|]. split; [reflexivity|]. split; [exact L1|]. discriminate.
    - assert (X : (if shared then used else to_pay) = used /\ (if shared then [] else logs) = []).
      { destruct shared; [auto|]. destruct (Hs eq_refl) as (H1 & H2 & H3). auto. }
      destruct X as (-> & ->). cbn [ch_world ch_status ch_to_pay ch_price ch_fee ch_logs].
      assert (X2 : (if shared then w else w) = w) by (destruct shared; reflexivity).
      assert (X3 : (if shared then used else used) = used) by (destruct shared; reflexivity).
      assert (X4 : (if shared then @nil (paid_by A) else []) = []) by (destruct shared; reflexivity).
      rewrite X2, X3, X4.
      destruct (Z.ltb_spec (bal w from) (used * price)) as [L2|L2].
      + destruct (Z.ltb_spec (bal w from) 0) as [L3|L3]; [exact L3|].
        right. right. split; [exact L3|]. split; [reflexivity|]. split; [exact L1|]. intros _. exact L2.
      + right. left. auto.
  Qed.
End Charge.
