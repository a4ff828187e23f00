(** What the fee of a transaction is made of. *)
Require Import ZArith List Bool Lia.
From Verif.Model Require Import CallFrames Deposits FeePayers TxExecute.
From Verif.Spec Require Import CallSpec DepositSpec FeeSpec TxSpec.
From Verif.Proof Require Import DepositFacts CallFacts FeeFacts FeeBounds FeeFrames FeeTx TxPays TxFacts TxCharge TxMaster.
Import ListNotations.
Open Scope Z_scope.

Section Account.
  Variables A R E M : Type.
  Variable eqb : A -> A -> bool.
  Variable is_system : A -> bool.
  Hypothesis eqb_eq : forall a b, eqb a b = true <-> a = b.
  Notation world := (world A R).
  Notation env := (env A R).
  Notation node := (node world E M A).

  Lemma agreement_range : forall (b : list node) o,
    match o with Some (_, q) => 0 < q <= 100 | None => True end ->
    match fold_left agreement b o with Some (_, q) => 0 < q <= 100 | None => True end.
  Proof.
    induction b as [|n b IH]; intros o H; cbn [fold_left]; [exact H|]. apply IH.
    unfold agreement. destruct n; try exact H.
    destruct (Z.ltb_spec portion 0) as [X|X]; cbn [orb]; [exact H|].
    destruct (Z.ltb_spec 100 portion) as [Y|Y]; [exact H|].
    destruct (Z.eqb_spec portion 0); [exact Logic.I|lia].
  Qed.

  Lemma all_sane_forall : forall (l : list (call A)), Forall sane l -> all_sane A l.
  Proof. induction 1; cbn; auto. Qed.

  Lemma settled_bounds : forall (e : env) (t : tx A) (w : world) (b : list node) en,
    0 <= e_default e -> 0 <= e_input e ->
    Forall sane (sharers e t w b en) -> good A (purse_of (after_call e t w b en)) ->
    let (s, bills) := settled A R E M eqb is_system e t w b en in
    good A s /\ 0 <= total bills <= steps_charged e t w b en /\ Forall (right_line A) bills /\
    moved A eqb is_system (e_price e) (purse_of (after_call e t w b en)) s bills /\
    (shares A R e t = false -> bills = []).
  Proof.
    intros e t w b en Hd Hi Hs Hg. unfold settled. destruct (shares A R e t).
    - pose proof (bounded_tx A eqb is_system (e_height e) (e_price e) eqb_eq (sharers e t w b en)
         (first_payer e t w b) (steps_charged e t w b en) (purse_of (after_call e t w b en))
         (all_sane_forall _ Hs)) as B.
      destruct (settle_tx (pay_for eqb is_system (e_height e) (e_price e)) (sharers e t w b en) (first_payer e t w b)
         (steps_charged e t w b en) (purse_of (after_call e t w b en))) as [s bills].
      destruct B as (B1 & B2 & B3 & B4).
      + unfold first_payer. destruct (refusal e t w); [exact Logic.I|].
        destruct (fee_sharing (e_pol e)); [|exact Logic.I]. apply agreement_range. exact Logic.I.
      + unfold steps_charged, steps_used, sharers, happened in *.
        destruct (refusal e t w) as [s0|]; [cbn; lia|].
        cbn [flat_map] in *. rewrite app_nil_r in *.
        destruct en as [u [k|]| |]; cbn [first_call first_sharing] in *; try (cbn; lia).
        destruct (existsb is_readonly b); [cbn; lia|]. cbn [sum_used fold_right used_of].
        unfold sum_used. cbn [fold_right used_of]. lia.
      + unfold steps_charged. lia.
      + exact Hg.
      + split; [exact B1|]. split; [exact B2|]. split; [exact B3|]. split; [exact B4|]. discriminate.
    - split; [exact Hg|]. change (total (@nil (bill A))) with 0. unfold steps_charged. split; [lia|]. split; [constructor|].
      split; [apply moved_refl|]. auto.
  Qed.

  Definition fees (l : list (bill A)) : Z := fold_right (fun b n => by_dep (b_fee b) + n) 0 l.

  Lemma same_sums : forall pd bills, Forall2 (same_line A) pd bills -> Forall (right_line A) bills ->
    Forall (pd_ok A) pd /\ pd_total A pd = total bills /\ pd_fees A pd = fees bills.
  Proof.
    intros pd bills H. induction H as [|d b pd bills Hd H IH]; intro F.
    - split; [constructor|]. split; reflexivity.
    - inversion F as [|? ? F1 F2]; subst. destruct (IH F2) as (I1 & I2 & I3).
      destruct Hd as (D1 & D2 & D3 & D4). destruct F1 as [F1 F3].
      split; [constructor; [|exact I1]; unfold pd_ok; rewrite D3, D4; exact F1|].
      change (pd_total A (d :: pd)) with (pd_paid d + pd_total A pd).
      change (pd_fees A (d :: pd)) with (by_dep (pd_fee d) + pd_fees A pd).
      change (total (b :: bills)) with (b_paid b + total bills).
      change (fees (b :: bills)) with (by_dep (b_fee b) + fees bills). rewrite D3, D4, I2, I3. auto.
  Qed.

  Definition ev (x : list (A * Z) * option Z) (used price : Z) : Z :=
    match fst x with [] => used * price | _ => match snd x with Some n => n * price | None => 0 end end.

  Lemma details_sum : forall from pd bills used price,
    Forall2 (same_line A) pd bills -> Forall (right_line A) bills ->
    let d := details A eqb from pd (used - total bills) in
    ev d used price = (used - total bills + fees bills) * price /\
    (fst d <> [] -> det_sum A (fst d) = used) /\
    (fst d = [] -> total bills = 0 /\ fees bills = 0).
  Proof.
    intros from pd bills used price H F. destruct (same_sums pd bills H F) as (S1 & S2 & S3).
    destruct (payments_sums A eqb pd S1) as (P1 & P2 & P3 & P4). rewrite S2 in P3. rewrite S3 in P4.
    unfold details. cbv zeta. set (pays := payments eqb pd) in *. clearbody pays.
    destruct pays as [|p ps].
    - cbn [List.length Nat.eqb negb andb fold_left]. cbn in P3, P4.
      unfold ev. cbn [fst snd]. split; [rewrite <- P3, <- P4; f_equal; lia|]. split; [congruence|]. lia.
    - pose proof (add_payments_sum A eqb (p :: ps) ([], None) P2) as Q. cbv zeta in Q.
      destruct Q as (Q1 & Q2 & Q3).
      set (d := fold_left (add_payment eqb) (p :: ps) ([], None)) in *.
      assert (Q4 : fst d <> []) by (apply Q3; left; discriminate). clearbody d. clear Q3.
      change (negb (Nat.eqb (List.length (p :: ps)) 0)) with true. cbn [andb].
      cbn [fst snd det_sum fold_right by_dep] in Q1, Q2. rewrite P3 in Q1. rewrite P4 in Q2.
      destruct (Z.eqb_spec (used - total bills) 0) as [Y|Y]; cbn [negb].
      + assert (Z1 : ev d used price = by_dep (snd d) * price).
        { unfold ev. destruct (fst d); [congruence|]. unfold by_dep. destruct (snd d); lia. }
        rewrite Z1, Q2. split; [f_equal; lia|]. split; [intros _; unfold det_sum in *; lia|congruence].
      + destruct (add_payment_sum A eqb d (from, used - total bills, Some (used - total bills))) as (V1 & V2 & V3).
        set (d' := add_payment eqb d (from, used - total bills, Some (used - total bills))) in *.
        assert (V4 : fst d' <> []) by (apply V3; right; exact Q4). clearbody d'.
        unfold e_paid, e_fee in V1, V2. cbn [fst snd by_dep] in V1, V2.
        assert (Z1 : ev d' used price = by_dep (snd d') * price).
        { unfold ev. destruct (fst d'); [congruence|]. unfold by_dep. destruct (snd d'); lia. }
        rewrite Z1, V2, Q2. split; [f_equal; lia|]. split; [intros _; unfold det_sum in *; lia|congruence].
  Qed.

  (** The coins the deposits have lost, over any set of accounts which has
      those whose deposits have changed. *)
  Definition lost (s s' : purse A) (L : list A) : Z :=
    fold_right (fun a n => sum coins (deposits_of s a) - sum coins (deposits_of s' a) + n) 0 L.

  Lemma sum_one : forall (f : A -> Z) (x : A) (k : Z) L, NoDup L ->
    (forall a, f a = if eqb a x then k else 0) ->
    fold_right (fun a n => f a + n) 0 L = if existsb (eqb x) L then k else 0.
  Proof.
    intros f x k L N Hf. induction N as [|a L Hn N IH]; [reflexivity|]. cbn [fold_right existsb]. rewrite IH, Hf.
    destruct (eqb a x) eqn:E1.
    - apply eqb_eq in E1. subst a.
      assert (E2 : eqb x x = true) by (apply eqb_eq; reflexivity). rewrite E2. cbn [orb].
      destruct (existsb (eqb x) L) eqn:E3; [|lia]. exfalso. apply existsb_exists in E3.
      destruct E3 as (y & Y1 & Y2). apply eqb_eq in Y2. subst y. exact (Hn Y1).
    - destruct (eqb x a) eqn:E2; cbn [orb]; [|lia].
      apply eqb_eq in E2. subst a. assert (eqb x x = true) by (apply eqb_eq; reflexivity). congruence.
  Qed.

  Lemma lost_eq : forall price s s' bills L,
    0 <= price -> NoDup L -> Forall (right_line A) bills ->
    (forall b, In b bills -> is_system (b_payer b) = true -> b_fee b = None) ->
    moved A eqb is_system price s s' bills ->
    (forall a, deposits_of s' a <> deposits_of s a -> In a L) ->
    lost s s' L = fees bills * price.
  Proof.
    intros price s s' bills L Hp N F Hsys (M1 & _ & _) HL.
    assert (E1 : lost s s' L = fold_right (fun a n => coins_by A eqb is_system price bills a + n) 0 L).
    { clear N HL. unfold lost. induction L as [|a L IH]; [reflexivity|]. cbn [fold_right]. rewrite IH, M1. lia. }
    rewrite E1. clear E1.
    assert (Z : forall a, ~ In a L -> coins_by A eqb is_system price bills a = 0).
    { intros a Ha. specialize (M1 a).
      (* were the coins different the deposits would be *)
      destruct (Z.eq_dec (coins_by A eqb is_system price bills a) 0) as [|Y]; [assumption|].
      exfalso. apply Ha. apply HL. intro X. rewrite X in M1. lia. }
    clear M1 HL s s'. induction bills as [|b bills IH].
    - cbn [fees fold_right]. clear. induction L as [|a L IH]; [reflexivity|]. cbn [fold_right]. rewrite IH. reflexivity.
    - inversion F as [|? ? F1 F2]; subst. destruct F1 as [F1 _].
      set (one := fun a => if negb (is_system a) && eqb a (b_payer b) then by_dep (b_fee b) * price else 0).
      assert (C : forall a, coins_by A eqb is_system price (b :: bills) a = one a + coins_by A eqb is_system price bills a)
        by reflexivity.
      assert (P : forall l a, Forall (right_line A) l -> 0 <= coins_by A eqb is_system price l a).
      { clear - Hp. intros l a. induction 1 as [|x l [X _] _ IH]; [cbn; lia|].
        change (coins_by A eqb is_system price (x :: l) a) with
          ((if negb (is_system a) && eqb a (b_payer x) then by_dep (b_fee x) * price else 0) + coins_by A eqb is_system price l a).
        destruct (negb (is_system a) && eqb a (b_payer x)); nia. }
      assert (O : forall a, 0 <= one a) by (intro a; unfold one; destruct (negb (is_system a) && eqb a (b_payer b)); nia).
      assert (I1 : fold_right (fun a n => coins_by A eqb is_system price bills a + n) 0 L = fees bills * price).
      { apply IH; [exact F2|intros x Hx; apply Hsys; right; exact Hx|]. intros a Ha.
        pose proof (Z a Ha) as Z1. rewrite C in Z1. pose proof (O a). pose proof (P bills a F2). lia. }
      assert (I2 : fold_right (fun a n => coins_by A eqb is_system price (b :: bills) a + n) 0 L =
                   fold_right (fun a n => one a + n) 0 L + fees bills * price).
      { rewrite <- I1. clear. induction L as [|a L IH]; [reflexivity|]. cbn [fold_right]. rewrite IH. change (coins_by A eqb is_system price (b :: bills) a) with (one a + coins_by A eqb is_system price bills a). lia. }
      rewrite I2. change (fees (b :: bills)) with (by_dep (b_fee b) + fees bills).
      assert (K : forall a, one a = if eqb a (b_payer b) then by_dep (b_fee b) * price else 0).
      { intro a. unfold one. destruct (eqb a (b_payer b)) eqn:X; [|rewrite andb_false_r; reflexivity].
        apply eqb_eq in X. subst a. rewrite andb_true_r. destruct (is_system (b_payer b)) eqn:Y; [|reflexivity].
        rewrite (Hsys b (or_introl eq_refl) Y). reflexivity. }
      rewrite (sum_one one (b_payer b) (by_dep (b_fee b) * price) L N K).
      destruct (existsb (eqb (b_payer b)) L) eqn:X; [lia|].
      assert (Hn : ~ In (b_payer b) L).
      { intro Y. assert (existsb (eqb (b_payer b)) L = true); [|congruence].
        apply existsb_exists. exists (b_payer b). split; [exact Y|]. apply eqb_eq. reflexivity. }
      pose proof (Z (b_payer b) Hn) as Z1. rewrite C, K in Z1.
      assert (Y : eqb (b_payer b) (b_payer b) = true) by (apply eqb_eq; reflexivity). rewrite Y in Z1.
      pose proof (P bills (b_payer b) F2). nia.
  Qed.

  (** A line of the system account has no coins. *)
  Lemma system_lines : forall height price cs first steps s,
    let (s', bills) := settle_tx (pay_for eqb is_system height price) cs first steps s in
    forall b, In b bills -> is_system (b_payer b) = true -> b_fee b = None.
  Proof.
    intros height price cs first steps s.
    set (ok := fun l : list (bill A) => forall b, In b l -> is_system (b_payer b) = true -> b_fee b = None).
    assert (P : forall s0 a n s1 paid fee, pay_for eqb is_system height price s0 a n = (s1, paid, fee) ->
       is_system a = true -> fee = None).
    { intros s0 a n s1 paid fee H Ha. unfold pay_for in H. rewrite Ha in H. injection H as _ _ <-. reflexivity. }
    assert (OA : forall l m, ok l -> ok m -> ok (l ++ m)).
    { intros l m H1 H2 b Hb. apply in_app_or in Hb. destruct Hb; auto. }
    assert (All : forall cs0, (forall c, In c cs0 -> forall s0, ok (snd (fst (fst (settle (pay_for eqb is_system height price) c s0))))) ->
       forall s0, ok (snd (fst (fst (settle_all (pay_for eqb is_system height price) cs0 s0))))).
    { induction cs0 as [|c r IH]; intros Hc s0; [intros b Hb; destruct Hb|]. cbn [settle_all].
      pose proof (Hc c (or_introl eq_refl) s0) as H1.
      destruct (settle (pay_for eqb is_system height price) c s0) as [[[s1 b1] d1] u1].
      pose proof (IH (fun x Hx => Hc x (or_intror Hx)) s1) as H2.
      destruct (settle_all (pay_for eqb is_system height price) r s1) as [[[s2 b2] d2] u2]. cbn [fst snd] in *. apply OA; assumption. }
    assert (One : forall c s0, ok (snd (fst (fst (settle (pay_for eqb is_system height price) c s0))))).
    { fix IH 1. intros [inner used agreed] s0. rewrite settle_eq.
      assert (B : ok (snd (fst (fst (settle_all (pay_for eqb is_system height price) inner s0))))).
      { apply All. clear - IH. revert inner. fix IHl 1. intros [|c r] x Hx; [destruct Hx|]. cbn [In] in Hx.
        destruct Hx as [Hx|Hx]; [rewrite <- Hx; apply IH|exact (IHl r x Hx)]. }
      destruct (settle_all (pay_for eqb is_system height price) inner s0) as [[[s1 b1] d1] u1].
      destruct agreed as [[a q]|]; [|exact B]. cbv zeta.
      destruct (pay_for eqb is_system height price s1 a ((used - d1 + u1) * q / 100)) as [[s2 paid] fee] eqn:Hp.
      cbn [fst snd] in *. apply OA; [exact B|]. intros b [<-|[]] Hb. cbn in *. exact (P _ _ _ _ _ _ Hp Hb). }
    unfold settle_tx. pose proof (All cs (fun c _ => One c) s) as B.
    destruct (settle_all (pay_for eqb is_system height price) cs s) as [[[s1 b1] d1] u1]. cbn [fst snd] in B.
    destruct first as [[a q]|]; [|exact B].
    destruct (pay_for eqb is_system height price s1 a ((steps - total b1) * q / 100)) as [[s2 paid] fee] eqn:Hp.
    apply OA; [exact B|]. intros b [<-|[]] Hb. cbn in *. exact (P _ _ _ _ _ _ Hp Hb).
  Qed.
End Account.
