(** Facts about deposits. *)
Require Import ZArith List Bool Lia.
From Verif.Model Require Import Deposits.
From Verif.Spec Require Import DepositSpec.
Import ListNotations.
Open Scope Z_scope.

Lemma sum_cons : forall f d dl, sum f (d :: dl) = f d + sum f dl.
Proof. reflexivity. Qed.

Lemma sum_avail : forall h dl, sum_available h dl = sum (available_deposit h) dl.
Proof. reflexivity. Qed.

(** What does not change in a deposit. *)
Definition same_terms (d d' : deposit) : Prop :=
  match d, d' with
  | V1 i am _ ex iss _ _, V1 i' am' _ ex' iss' _ _ => i = i' /\ am = am' /\ ex = ex' /\ iss = iss'
  | V2 _, V2 _ => True
  | _, _ => False
  end.

Lemma same_terms_refl : forall d, same_terms d d.
Proof. intros [i am rm ex iss sr xh|rm]; cbn; auto. Qed.

Lemma same_terms_trans : forall a b c, same_terms a b -> same_terms b c -> same_terms a c.
Proof.
  intros [i1 a1 r1 e1 s1 t1 x1|r1] [i2 a2 r2 e2 s2 t2 x2|r2] [i3 a3 r3 e3 s3 t3 x3|r3]; cbn; try tauto.
  intros (H1 & H2 & H3 & H4) (G1 & G2 & G3 & G4). repeat split; congruence.
Qed.

Section Consumer.
  Variable h : Z.
  Variable f : deposit -> Z -> deposit * Z.
  Variables (pre done : deposit -> Prop) (mu nu : deposit -> Z).
  Hypothesis fspec : forall d n d' n',
    sound d -> pre d -> 0 <= n -> f d n = (d', n') ->
    sound d' /\ 0 <= n' <= n /\ mu d' = mu d - (n - n') /\ nu d' = nu d /\
    same_terms d d' /\ (n' <> 0 -> done d') /\ (active h d = false -> d' = d).

  Lemma consume_spec : forall dl n dl' n',
    Forall sound dl -> Forall pre dl -> 0 <= n -> consume f dl n = (dl', n') ->
    Forall sound dl' /\ 0 <= n' <= n /\ sum mu dl' = sum mu dl - (n - n') /\
    sum nu dl' = sum nu dl /\ Forall2 same_terms dl dl' /\
    (n' <> 0 -> Forall done dl') /\
    Forall2 (fun d d' => active h d = false -> d' = d) dl dl'.
  Proof.
    induction dl as [|d dl IH]; intros n dl' n' Hs Hp Hn Hc.
    - cbn in Hc. injection Hc as H1 H2. subst. repeat (split; [auto; cbn; lia|]). constructor.
    - inversion Hs as [|? ? S1 S2]; subst. inversion Hp as [|? ? P1 P2]; subst.
      cbn [consume] in Hc. destruct (f d n) as [d1 n1] eqn:Hf.
      destruct (fspec d n d1 n1 S1 P1 Hn Hf) as (F1 & F2 & F3 & F4 & F5 & F6 & F7).
      destruct (Z.eqb_spec n1 0) as [H0|H0].
      + injection Hc as H1 H2. subst dl' n'. rewrite !sum_cons.
        split; [constructor; assumption|]. split; [lia|]. split; [lia|]. split; [lia|].
        split; [constructor; [assumption|]|].
        { clear. induction dl; constructor; auto. apply same_terms_refl. }
        split; [intro; congruence|]. constructor; [assumption|].
        clear. induction dl; constructor; auto.
      + destruct (consume f dl n1) as [r m] eqn:Hr. injection Hc as H1 H2. subst dl' n'.
        destruct (IH n1 r m S2 P2 ltac:(lia) Hr) as (I1 & I2 & I3 & I4 & I5 & I6 & I7).
        rewrite !sum_cons.
        split; [constructor; assumption|]. split; [lia|]. split; [lia|]. split; [lia|].
        split; [constructor; assumption|].
        split; [intro Hm; constructor; auto|]. constructor; assumption.
  Qed.
End Consumer.

Ltac parts := repeat match goal with |- _ /\ _ => split end.
Ltac fin := cbn; intros; try tauto; try lia; try congruence.

Lemma ltb_true : forall a b, a < b -> (a <? b) = true.
Proof. intros. apply Z.ltb_lt. assumption. Qed.
Lemma ltb_false : forall a b, b <= a -> (a <? b) = false.
Proof. intros. apply Z.ltb_ge. assumption. Qed.

(** The three consumers. *)
Lemma steps_spec : forall h d n d' n',
  sound d -> True -> 0 <= n -> consume_steps h d n = (d', n') ->
  sound d' /\ 0 <= n' <= n /\ vsteps d' = vsteps d - (n - n') /\ coins d' = coins d /\
  same_terms d d' /\ (n' <> 0 -> active h d' = true -> vsteps d' = 0) /\ (active h d = false -> d' = d).
Proof.
  intros h [i am rm ex iss sr xh|rm] n d' n' Hs _ Hn Hf; unfold consume_steps, expired in Hf.
  - unfold sound in Hs. destruct Hs as (Q1 & Q2 & Q3 & Q4).
    destruct (Z.leb_spec ex h) as [He|He].
    { injection Hf as <- <-. pose proof (ltb_false h ex He). unfold sound; parts; fin. }
    pose proof (ltb_true h ex He).
    destruct (Z.eqb_spec sr 0) as [Hz|Hz].
    { injection Hf as <- <-. unfold sound; parts; fin. }
    destruct (Z.ltb_spec sr n) as [Hlt|Hlt]; injection Hf as <- <-; unfold sound; parts; fin.
  - injection Hf as <- <-. cbn in Hs. unfold sound; parts; fin.
Qed.

(** The coins of the deposits which have not expired. *)
Lemma avail_active : forall h d, available_deposit h d = if active h d then coins d else 0.
Proof.
  intros h [i am rm ex iss sr xh|rm]; cbn; [|reflexivity]. unfold expired.
  destruct (Z.leb_spec ex h); destruct (Z.ltb_spec h ex); auto; lia.
Qed.

Definition drained (h : Z) (d : deposit) : Prop :=
  match d with
  | V1 _ am rm ex _ _ xh => active h d = true -> xh = true
  | V2 rm => rm = 0
  end.

Lemma lv1_spec : forall h d n d' n',
  sound d -> True -> 0 <= n -> consume_lv1 h d n = (d', n') ->
  sound d' /\ 0 <= n' <= n /\ coins d' = coins d - (n - n') /\ vsteps d' = vsteps d /\
  same_terms d d' /\ (n' <> 0 -> drained h d') /\ (active h d = false -> d' = d).
Proof.
  intros h [i am rm ex iss sr xh|rm] n d' n' Hs _ Hn Hf; unfold consume_lv1, expired, min_deposit in Hf.
  - unfold sound in Hs. destruct Hs as (Q1 & Q2 & Q3 & Q4).
    destruct (Z.leb_spec ex h) as [He|He].
    { cbn in Hf. injection Hf as <- <-. pose proof (ltb_false h ex He). unfold sound; parts; fin. }
    pose proof (ltb_true h ex He). cbn [orb] in Hf. destruct xh.
    { injection Hf as <- <-. unfold sound; parts; fin. }
    assert (Hrm : am / 10 < rm).
    { destruct (Z.ltb_spec (am / 10) rm); [assumption|]. destruct Q4 as [_ Q4].
      specialize (Q4 ltac:(lia)). discriminate Q4. }
    assert (Ham : 0 <= am / 10) by (apply Z.div_pos; lia).
    destruct (Z.leb_spec rm (am / 10)); [lia|].
    destruct (Z.leb_spec (rm - am / 10) n) as [Hp|Hp]; injection Hf as <- <-;
      unfold sound; parts; fin.
  - cbn in Hs. destruct (Z.leb_spec rm n); injection Hf as <- <-; unfold sound; parts; fin.
Qed.

Definition empty_v1 (h : Z) (d : deposit) : Prop :=
  match d with
  | V1 _ _ rm _ _ _ _ => active h d = true -> rm = 0
  | V2 _ => True
  end.

Lemma lv2_spec : forall h d n d' n',
  sound d -> drained h d -> 0 <= n -> consume_lv2 h d n = (d', n') ->
  sound d' /\ 0 <= n' <= n /\ coins d' = coins d - (n - n') /\ vsteps d' = vsteps d /\
  same_terms d d' /\ (n' <> 0 -> empty_v1 h d') /\ (active h d = false -> d' = d).
Proof.
  intros h [i am rm ex iss sr xh|rm] n d' n' Hs Hd Hn Hf; unfold consume_lv2, expired in Hf.
  - unfold sound in Hs. destruct Hs as (Q1 & Q2 & Q3 & Q4). cbn [drained] in Hd. unfold active in Hd.
    destruct (Z.leb_spec ex h) as [He|He].
    { cbn in Hf. injection Hf as <- <-. pose proof (ltb_false h ex He). unfold sound; parts; fin. }
    pose proof (ltb_true h ex He) as Ha.
    assert (Hx : xh = true) by (apply Hd; exact Ha).
    subst xh. destruct Q4 as [Q4 _]. specialize (Q4 eq_refl).
    assert (Ham : 0 <= am / 10) by (apply Z.div_pos; lia).
    destruct (Z.ltb_spec rm n) as [Hp|Hp]; injection Hf as <- <-; unfold sound; parts; fin.
  - injection Hf as <- <-. cbn in Hs. unfold sound; parts; fin.
Qed.

(** Sums of what is available. *)
Lemma avail_change : forall h dl dl',
  Forall2 same_terms dl dl' ->
  Forall2 (fun d d' => active h d = false -> d' = d) dl dl' ->
  sum (available_deposit h) dl - sum coins dl = sum (available_deposit h) dl' - sum coins dl'.
Proof.
  intros h dl dl' H. induction H as [|d d' dl dl' Hst H IH]; intro Hu; [reflexivity|].
  inversion Hu as [|? ? ? ? U1 U2]; subst. rewrite !sum_cons. specialize (IH U2).
  assert (Ha : active h d' = active h d).
  { destruct d, d'; cbn in *; try tauto. destruct Hst as (_ & _ & -> & _). reflexivity. }
  rewrite !avail_active, Ha. destruct (active h d) eqn:Had; [lia|].
  rewrite (U1 eq_refl). lia.
Qed.

Lemma sum_nonneg : forall h dl, Forall sound dl -> 0 <= sum (available_deposit h) dl.
Proof.
  intros h dl H. induction H as [|d dl Hd H IH]; [cbn; lia|]. rewrite sum_cons, avail_active.
  destruct (active h d); [|lia]. destruct d; cbn in *; lia.
Qed.

Lemma empty_avail : forall h dl, Forall (empty_v1 h) dl ->
  (forall d, In d dl -> match d with V2 rm => rm = 0 | _ => True end) ->
  sum (available_deposit h) dl = 0.
Proof.
  intros h dl H. induction H as [|d dl Hd H IH]; intro Hv; [reflexivity|].
  rewrite sum_cons, avail_active, IH by (intros x Hx; apply Hv; right; exact Hx).
  destruct (active h d) eqn:Ha; [|reflexivity].
  destruct d as [i am rm ex iss sr xh|rm]; cbn in *.
  - rewrite Hd by assumption. reflexivity.
  - rewrite (Hv (V2 rm) (or_introl eq_refl)). reflexivity.
Qed.

Lemma consume_lv2_v2 : forall h dl n, (forall d, In d dl -> match d with V2 rm => rm = 0 | _ => True end) ->
  forall d, In d (fst (consume (consume_lv2 h) dl n)) -> match d with V2 rm => rm = 0 | _ => True end.
Proof.
  induction dl as [|x dl IH]; intros n H d Hd; [destruct Hd|].
  cbn [consume] in Hd. destruct (consume_lv2 h x n) as [x' n'] eqn:Hx.
  assert (Hx' : match x' with V2 rm => rm = 0 | _ => True end).
  { destruct x as [i am rm ex iss sr xh|rm]; cbn in Hx.
    - destruct (expired ex h); [injection Hx as <- _; auto|].
      destruct (rm <? n); injection Hx as <- _; auto.
    - injection Hx as <- _. apply (H (V2 rm)). left. reflexivity. }
  assert (Hrest : forall y, In y dl -> match y with V2 rm => rm = 0 | _ => True end)
    by (intros y Hy; apply H; right; exact Hy).
  destruct (n' =? 0).
  - cbn in Hd. destruct Hd as [<-|Hd]; auto. apply Hrest. exact Hd.
  - pose proof (IH n' Hrest) as IH'. destruct (consume (consume_lv2 h) dl n') as [r m]. cbn in *.
    destruct Hd as [<-|Hd]; [exact Hx'|exact (IH' d Hd)].
Qed.

Lemma Forall2_trans_same : forall a b c,
  Forall2 same_terms a b -> Forall2 same_terms b c -> Forall2 same_terms a c.
Proof.
  intros a b c H. revert c. induction H; intros c Hc; inversion Hc; subst; constructor; auto.
  eapply same_terms_trans; eassumption.
Qed.

Lemma active_same : forall h d d', same_terms d d' -> active h d' = active h d.
Proof.
  intros h [i am rm ex iss sr xh|rm] [i' am' rm' ex' iss' sr' xh'|rm'] H; cbn in *; try tauto.
  destruct H as (_ & _ & -> & _). reflexivity.
Qed.

Lemma Forall2_trans_un : forall h a b c,
  Forall2 same_terms a b ->
  Forall2 (fun d d' => active h d = false -> d' = d) a b ->
  Forall2 (fun d d' => active h d = false -> d' = d) b c ->
  Forall2 (fun d d' => active h d = false -> d' = d) a c.
Proof.
  intros h a b c Hs H. revert c. induction H; intros c Hc; inversion Hc; subst; constructor; auto.
  - inversion Hs; subst. intro Ha. rewrite <- (H Ha). match goal with X : active h y = false -> _ |- _ => apply X end.
    rewrite (active_same h x y) by assumption. exact Ha.
  - inversion Hs; subst. apply IHForall2; assumption.
Qed.

Definition by_dep (k : option Z) : Z := match k with Some n => n | None => 0 end.

Theorem pay_spec : forall h price dl steps dl' paid k,
  Forall sound dl -> 0 <= steps ->
  pay_steps h price dl steps = Some (dl', paid, k) ->
  0 < price /\ Forall sound dl' /\ Forall2 same_terms dl dl' /\
  Forall2 (fun d d' => active h d = false -> d' = d) dl dl' /\
  0 <= by_dep k <= paid /\ paid <= steps /\
  sum coins dl' = sum coins dl - by_dep k * price /\
  sum vsteps dl' = sum vsteps dl - (paid - by_dep k) /\
  (paid < steps -> sum (available_deposit h) dl' < price /\
                   Forall (fun d => active h d = true -> vsteps d = 0) dl').
Proof.
  intros h price dl steps dl' paid k Hs Hn Hp. unfold pay_steps in Hp.
  destruct (Z.leb_spec price 0) as [Hpr|Hpr]; [discriminate Hp|].
  split; [exact Hpr|].
  destruct dl as [|d0 dl0]; [discriminate Hp|]. set (dl := d0 :: dl0) in *. clearbody dl.
  destruct (consume (consume_steps h) dl steps) as [dl1 rem] eqn:H1.
  assert (Ft : forall l, Forall (fun _ : deposit => True) l) by (induction l; constructor; auto).
  destruct (consume_spec h (consume_steps h) (fun _ => True)
     (fun d => active h d = true -> vsteps d = 0) vsteps coins (steps_spec h) dl steps dl1 rem Hs (Ft _) Hn H1)
    as (A1 & A2 & A3 & A4 & A5 & A6 & A7).
  destruct (Z.eqb_spec rem 0) as [Hz|Hz].
  { injection Hp as <- <- <-. cbn [by_dep]. subst rem.
    split; [assumption|]. split; [assumption|]. split; [assumption|].
    split; [lia|]. split; [lia|]. split; [lia|]. split; [lia|]. intros; lia. }
  rewrite sum_avail in Hp.
  set (av := sum (available_deposit h) dl1) in *.
  assert (Hav : 0 <= av) by (apply sum_nonneg; assumption).
  set (bd := if av / price <? rem then av / price else rem) in *.
  set (pd := if av / price <? rem then steps - rem + bd else steps) in *.
  assert (Hdiv : 0 <= av / price) by (apply Z.div_pos; lia).
  assert (Hbd : 0 <= bd <= rem /\ bd <= av / price).
  { unfold bd. destruct (Z.ltb_spec (av / price) rem); lia. }
  assert (Hpd : pd = steps - rem + bd).
  { unfold pd. unfold bd. destruct (Z.ltb_spec (av / price) rem); lia. }
  assert (Hfee : bd * price <= av).
  { assert (av / price * price <= av) by (rewrite Z.mul_comm; apply Z.mul_div_le; lia). nia. }
  destruct (consume (consume_lv1 h) dl1 (bd * price)) as [dl2 fee2] eqn:H2.
  destruct (consume_spec h (consume_lv1 h) (fun _ => True) (drained h) coins vsteps (lv1_spec h)
     dl1 (bd * price) dl2 fee2 A1 (Ft _) ltac:(nia) H2) as (B1 & B2 & B3 & B4 & B5 & B6 & B7).
  set (dl3 := if fee2 =? 0 then dl2 else fst (consume (consume_lv2 h) dl2 fee2)) in *.
  assert (C : Forall sound dl3 /\ sum coins dl3 = sum coins dl2 - fee2 /\ sum vsteps dl3 = sum vsteps dl2 /\
              Forall2 same_terms dl2 dl3 /\
              Forall2 (fun d d' => active h d = false -> d' = d) dl2 dl3).
  { unfold dl3. destruct (Z.eqb_spec fee2 0) as [H0|H0].
    - subst fee2. split; [assumption|]. split; [lia|]. split; [reflexivity|].
      split; [clear; induction dl2; constructor; auto; apply same_terms_refl|].
      clear; induction dl2; constructor; auto.
    - pose proof (B6 H0) as Hdr.
      pose proof (consume_lv2_v2 h dl2 fee2) as Hv2.
      destruct (consume (consume_lv2 h) dl2 fee2) as [x m] eqn:H3.
      destruct (consume_spec h (consume_lv2 h) (drained h) (empty_v1 h) coins vsteps (lv2_spec h)
        dl2 fee2 x m B1 Hdr ltac:(lia) H3) as (C1 & C2 & C3 & C4 & C5 & C6 & C7).
      cbn [fst] in *.
      assert (Hm : m = 0).
      { destruct (Z.eq_dec m 0) as [|Hm]; [assumption|]. exfalso.
        assert (E0 : sum (available_deposit h) x = 0).
        { apply empty_avail; [exact (C6 Hm)|]. intros d Hd. apply (Hv2); [|exact Hd].
          intros y Hy. rewrite Forall_forall in Hdr. specialize (Hdr y Hy). destruct y; [auto|exact Hdr]. }
        pose proof (avail_change h dl1 dl2 B5 B7) as E1.
        pose proof (avail_change h dl2 x C5 C7) as E2. lia. }
      subst m. split; [assumption|]. split; [lia|]. split; [assumption|]. split; assumption. }
  destruct C as (C1 & C2 & C3 & C4 & C5).
  injection Hp as <- <- <-. cbn [by_dep].
  assert (T13 : Forall2 same_terms dl1 dl3) by (exact (Forall2_trans_same dl1 dl2 dl3 B5 C4)).
  assert (U13 : Forall2 (fun d d' => active h d = false -> d' = d) dl1 dl3)
    by (exact (Forall2_trans_un h dl1 dl2 dl3 B5 B7 C5)).
  split; [assumption|]. split; [exact (Forall2_trans_same dl dl1 dl3 A5 T13)|].
  split; [exact (Forall2_trans_un h dl dl1 dl3 A5 A7 U13)|].
  split; [lia|]. split; [lia|]. split; [lia|]. split; [lia|].
  intro Hlt. split.
  - pose proof (avail_change h dl1 dl3 T13 U13) as E1.
    assert (Hb : bd = av / price).
    { clear - Hlt Hpd. unfold bd in *. destruct (Z.ltb_spec (av / price) rem); [reflexivity|]. lia. }
    pose proof (Z.mod_pos_bound av price Hpr). pose proof (Z.div_mod av price ltac:(lia)).
    fold av in E1. nia.
  - specialize (A6 Hz).
    (* the virtual steps of no deposit have come back *)
    set (R := fun d d' => vsteps d' = vsteps d /\ active h d' = active h d).
    assert (V : forall a b, Forall2 R a b ->
              Forall (fun d => active h d = true -> vsteps d = 0) a ->
              Forall (fun d => active h d = true -> vsteps d = 0) b).
    { intros a b Hv. induction Hv as [|x y a b [R1 R2] Hv IHv]; intros Ha; constructor.
      - inversion Ha; subst. intro Hy. rewrite R1. rewrite R2 in Hy. auto.
      - inversion Ha; subst. auto. }
    assert (P1 : forall g, (forall d n, R d (fst (g d n))) -> forall l n,
              Forall2 R l (fst (consume g l n))).
    { intros g Hg. induction l as [|d l IHl]; intro n; [constructor|]. cbn [consume].
      pose proof (Hg d n) as Hgd. destruct (g d n) as [d' n']. cbn [fst] in Hgd.
      destruct (n' =? 0).
      - cbn. constructor; [assumption|]. clear. induction l; constructor; auto. split; reflexivity.
      - pose proof (IHl n') as IHn. destruct (consume g l n'). cbn in *. constructor; assumption. }
    assert (G1 : forall d n, R d (fst (consume_lv1 h d n))).
    { intros [i am rm ex iss sr xh|rm] n; unfold R; cbn.
      - destruct (expired ex h || xh); [auto|]. destruct (rm <=? min_deposit am); [auto|].
        destruct (_ <=? n); auto.
      - destruct (rm <=? n); auto. }
    assert (G2 : forall d n, R d (fst (consume_lv2 h d n))).
    { intros [i am rm ex iss sr xh|rm] n; unfold R; cbn; [|auto].
      destruct (expired ex h); [auto|]. destruct (rm <? n); auto. }
    assert (Z2 : Forall (fun d => active h d = true -> vsteps d = 0) dl2).
    { apply (V dl1 dl2); auto.
      pose proof (P1 _ G1 dl1 (bd * price)) as X. rewrite H2 in X. exact X. }
    unfold dl3. destruct (fee2 =? 0); [exact Z2|].
    apply (V dl2); auto.
Qed.

(** ** The tenth of a deposit *)
Lemma consume_rel : forall (R : deposit -> deposit -> Prop) g,
  (forall d, R d d) -> (forall d n, R d (fst (g d n))) ->
  forall l n, Forall2 R l (fst (consume g l n)).
Proof.
  intros R g Hr Hg. induction l as [|d l IHl]; intro n; [constructor|]. cbn [consume].
  pose proof (Hg d n) as Hgd. destruct (g d n) as [d' n']. cbn [fst] in Hgd.
  destruct (n' =? 0).
  - cbn. constructor; [assumption|]. clear - Hr. induction l; constructor; auto.
  - pose proof (IHl n') as IHn. destruct (consume g l n'). cbn in *. constructor; assumption.
Qed.

Definition keeps_tenth (d d' : deposit) : Prop :=
  coins d' = coins d \/ match d with V1 _ am _ _ _ _ _ => am / 10 <= coins d' | V2 _ => True end.

Lemma usable_drained : forall h dl, Forall sound dl -> Forall (drained h) dl ->
  sum (usable_deposit h) dl = 0.
Proof.
  intros h dl Hs. induction Hs as [|d dl Hd Hs IH]; intro H; [reflexivity|].
  inversion H as [|? ? H1 H2]; subst. rewrite sum_cons, (IH H2).
  destruct d as [i am rm ex iss sr xh|rm]; cbn in *; [|lia].
  unfold expired, min_deposit. destruct (Z.leb_spec ex h) as [He|He]; [reflexivity|].
  specialize (H1 (ltb_true h ex He)). destruct Hd as (_ & _ & _ & [Hx _]). specialize (Hx H1).
  destruct (Z.leb_spec rm (am / 10)); [reflexivity|lia].
Qed.

Lemma tenth_spec : forall h price dl steps dl' paid k,
  Forall sound dl -> 0 <= steps ->
  pay_steps h price dl steps = Some (dl', paid, k) ->
  0 < sum (usable_deposit h) dl' ->
  Forall2 keeps_tenth dl dl'.
Proof.
  intros h price dl steps dl' paid k Hs Hn Hp Hu.
  pose proof (pay_spec h price dl steps dl' paid k Hs Hn Hp) as (_ & Hs' & _).
  unfold pay_steps in Hp.
  destruct (Z.leb_spec price 0) as [Hpr|Hpr]; [discriminate Hp|].
  destruct dl as [|d0 dl0]; [discriminate Hp|]. set (dl := d0 :: dl0) in *. clearbody dl.
  assert (Ft : forall l, Forall (fun _ : deposit => True) l) by (induction l; constructor; auto).
  pose (R1 := fun d d' : deposit => coins d' = coins d /\ same_terms d d').
  assert (S1 : Forall2 R1 dl (fst (consume (consume_steps h) dl steps))).
  { apply consume_rel.
    - intro d. split; [reflexivity|apply same_terms_refl].
    - intros [i am rm ex iss sr xh|rm] n; unfold R1; cbn; [|auto].
      destruct (expired ex h); [cbn; auto|]. destruct (sr =? 0); [cbn; auto|].
      destruct (sr <? n); cbn; auto. }
  destruct (consume (consume_steps h) dl steps) as [dl1 rem] eqn:H1. cbn [fst] in S1.
  destruct (consume_spec h (consume_steps h) (fun _ => True)
     (fun d => active h d = true -> vsteps d = 0) vsteps coins (steps_spec h) dl steps dl1 rem Hs (Ft _) Hn H1)
    as (A1 & A2 & _).
  destruct (Z.eqb_spec rem 0) as [Hz|Hz].
  { injection Hp as <- <- <-. clear - S1. induction S1 as [|x y a b [X1 X2] S1 IH]; constructor; auto.
    left. exact X1. }
  rewrite sum_avail in Hp.
  set (av := sum (available_deposit h) dl1) in *.
  assert (Hav : 0 <= av) by (apply sum_nonneg; assumption).
  set (bd := if av / price <? rem then av / price else rem) in *.
  assert (Hdiv : 0 <= av / price) by (apply Z.div_pos; lia).
  assert (Hbd : 0 <= bd).
  { clear - Hdiv A2. unfold bd. destruct (Z.ltb_spec (av / price) rem); lia. }
  pose (R2 := fun d d' : deposit => (coins d' = coins d \/
        match d with V1 _ am _ _ _ _ _ => am / 10 <= coins d' | V2 _ => True end) /\ same_terms d d').
  assert (S2 : Forall2 R2 dl1 (fst (consume (consume_lv1 h) dl1 (bd * price)))).
  { apply consume_rel.
    - intro d. split; [left; reflexivity|apply same_terms_refl].
    - intros [i am rm ex iss sr xh|rm] n; unfold R2; cbn.
      + destruct (expired ex h || xh); [cbn; auto|]. unfold min_deposit.
        destruct (Z.leb_spec rm (am / 10)); [cbn; auto|].
        destruct (Z.leb_spec (rm - am / 10) n); cbn; (split; [right; lia|auto]).
      + destruct (rm <=? n); cbn; auto. }
  destruct (consume (consume_lv1 h) dl1 (bd * price)) as [dl2 fee2] eqn:H2. cbn [fst] in S2.
  destruct (consume_spec h (consume_lv1 h) (fun _ => True) (drained h) coins vsteps (lv1_spec h)
     dl1 (bd * price) dl2 fee2 A1 (Ft _) ltac:(nia) H2) as (B1 & B2 & _ & _ & _ & B6 & _).
  assert (T : forall a b c, Forall2 R1 a b -> Forall2 R2 b c -> Forall2 keeps_tenth a c).
  { intros a b c X. revert c. induction X as [|x y a b [X1 X2] X IH]; intros c Y;
      inversion Y as [|? z ? c' [Y1 Y2] Y3]; subst; constructor; auto.
    unfold keeps_tenth. destruct Y1 as [Y1|Y1]; [left; congruence|].
    right. destruct x, y; cbn in X2; try tauto. destruct X2 as (_ & -> & _). exact Y1. }
  destruct (Z.eqb_spec fee2 0) as [H0|H0].
  { injection Hp as <- <- <-. exact (T dl dl1 dl2 S1 S2). }
  exfalso. injection Hp as Hd _ _. subst dl'. specialize (B6 H0).
  assert (D : Forall (drained h) (fst (consume (consume_lv2 h) dl2 fee2))).
  { assert (X : Forall2 (fun d d' => drained h d -> drained h d') dl2 (fst (consume (consume_lv2 h) dl2 fee2))).
    { apply consume_rel; [auto|]. intros [i am rm ex iss sr xh|rm] n; cbn; [|auto].
      destruct (expired ex h); [auto|]. destruct (rm <? n); auto. }
    clear - X B6. induction X; constructor; inversion B6; subst; auto. }
  rewrite (usable_drained h _ Hs' D) in Hu. lia.
Qed.

(** ** Adding and withdrawing *)
Lemma virtual_nonneg : forall a r p, 0 <= a -> 0 <= r -> 0 <= virtual_steps a r p.
Proof.
  intros a r p Ha Hr. unfold virtual_steps. destruct (Z.leb_spec p 0); [lia|].
  apply Z.div_pos; [|lia]. apply Z.div_pos; nia.
Qed.

Lemma new_sound : forall dc v, 0 <= v -> (d_term dc <> 0 -> 0 < v) -> 0 <= d_rate dc ->
  sound (new_deposit dc v) /\ coins (new_deposit dc v) = v.
Proof.
  intros dc v Hv Ht Hr. unfold new_deposit. destruct (Z.eqb_spec (d_term dc) 0) as [H|H].
  - cbn. auto.
  - specialize (Ht H). pose proof (virtual_nonneg v (d_rate dc) (d_price dc) Hv Hr).
    assert (v / 10 < v) by (apply Z.div_lt; lia).
    cbn [sound coins]. split; [|reflexivity].
    split; [lia|]. split; [lia|]. split; [lia|]. split; [discriminate|intros; exfalso; lia].
Qed.

Lemma add_to_spec : forall dl id v fresh dl',
  Forall sound dl -> 0 <= v -> sound fresh -> coins fresh = v ->
  add_to dl id v fresh = Some dl' -> Forall sound dl' /\ sum coins dl' = sum coins dl + v.
Proof.
  induction dl as [|d dl IH]; intros id v fresh dl' Hs Hv Hf Hc Ha; cbn [add_to] in Ha.
  - injection Ha as <-. split; [constructor; auto|]. cbn. lia.
  - inversion Hs as [|? ? S1 S2]; subst.
    destruct (identified d id).
    + destruct d as [i am rm ex iss sr xh|rm]; cbn [add] in Ha; [discriminate|].
      injection Ha as <-. cbn in S1. split; [constructor; [cbn; lia|assumption]|].
      rewrite !sum_cons. cbn [coins]. lia.
    + destruct (add_to dl id (coins fresh) fresh) as [r|] eqn:Hr; [|discriminate].
      injection Ha as <-. destruct (IH _ _ _ _ S2 Hv Hf eq_refl Hr) as [I1 I2].
      split; [constructor; assumption|]. rewrite !sum_cons. lia.
Qed.

Lemma withdraw_spec : forall h price d v a p lft,
  sound d -> 0 <= price -> (forall x, v = Some x -> 0 <= x) ->
  withdraw h price d v = Some (a, p, lft) ->
  0 <= a /\ 0 <= p /\
  match lft with
  | Some d' => sound d' /\ same_terms d d' /\ coins d = coins d' + a + p
  | None => coins d = a + p
  end.
Proof.
  intros h price [i am rm ex iss sr xh|rm] v a p lft Hs Hp Hv Hw; unfold withdraw, expired in Hw.
  - unfold sound in Hs. destruct Hs as (Q1 & Q2 & Q3 & Q4). destruct v; [discriminate|].
    destruct (Z.leb_spec ex h); [injection Hw as <- <- <-; cbn; lia|].
    destruct (Z.leb_spec ((iss - sr) * price) rm); injection Hw as <- <- <-; cbn; nia.
  - cbn in Hs. destruct v as [x|].
    + specialize (Hv x eq_refl). destruct (Z.ltb_spec x rm); [injection Hw as <- <- <-; cbn; lia|].
      destruct (Z.eqb_spec x rm); [injection Hw as <- <- <-; cbn; lia|discriminate].
    + rewrite Z.ltb_irrefl, Z.eqb_refl in Hw. injection Hw as <- <- <-. cbn. lia.
Qed.

Lemma withdraw_from_spec : forall dc dl id v dl' a p,
  Forall sound dl -> 0 <= d_price dc -> (forall x, v = Some x -> 0 <= x) ->
  withdraw_from dc dl id v = Some (dl', a, p) ->
  Forall sound dl' /\ 0 <= a /\ 0 <= p /\ sum coins dl = sum coins dl' + a + p.
Proof.
  intros dc. induction dl as [|d dl IH]; intros id v dl' a p Hs Hp Hv Hw; cbn [withdraw_from] in Hw; [discriminate|].
  inversion Hs as [|? ? S1 S2]; subst.
  destruct (identified d id).
  - destruct (withdraw (d_height dc) (d_price dc) d v) as [[[a1 p1] lft]|] eqn:Hd; [|discriminate].
    injection Hw as <- <- <-.
    destruct (withdraw_spec _ _ _ _ _ _ _ S1 Hp Hv Hd) as (W1 & W2 & W3).
    destruct lft as [d'|]; rewrite !sum_cons.
    + destruct W3 as (W3 & _ & W4). split; [constructor; assumption|]. lia.
    + split; [assumption|]. lia.
  - destruct (withdraw_from dc dl id v) as [[[r a1] p1]|] eqn:Hr; [|discriminate].
    injection Hw as <- <- <-. destruct (IH _ _ _ _ _ S2 Hp Hv Hr) as (I1 & I2 & I3 & I4).
    split; [constructor; assumption|]. rewrite !sum_cons. lia.
Qed.

Lemma reload_same : forall d, sound d -> reload d = d.
Proof.
  intros [i am rm ex iss sr xh|rm] H; [|reflexivity]. cbn [reload]. f_equal.
  unfold sound in H. destruct H as (_ & _ & _ & [H1 H2]). unfold min_deposit.
  destruct (Z.leb_spec rm (am / 10)).
  - symmetry. auto.
  - destruct xh; [specialize (H1 eq_refl); lia|reflexivity].
Qed.

(** ** Histories *)
Definition balanced (x : list deposit * ledger) : Prop :=
  Forall sound (fst x) /\
  l_in (snd x) = l_out (snd x) + l_penalty (snd x) + l_fee (snd x) + sum coins (fst x) /\
  0 <= l_out (snd x) /\ 0 <= l_penalty (snd x) /\ 0 <= l_fee (snd x).

Lemma do_op_balanced : forall x o, balanced x -> op_ok o -> balanced (do_op x o).
Proof.
  intros [dl l] o (B1 & B2 & B3 & B4 & B5) Ho. cbn [fst snd] in *.
  destruct o as [dc v|dc id v|dc n|]; cbn [do_op op_ok] in *.
  - destruct Ho as (O1 & O2 & O3). destruct (add_deposit dc dl v) as [dl'|] eqn:Ha.
    2: { repeat split; cbn; auto. }
    unfold add_deposit in Ha. destruct (new_sound dc v O1 O2 O3) as [N1 N2].
    destruct (add_to_spec dl _ v _ dl' B1 O1 N1 N2 Ha) as [A1 A2].
    unfold balanced. cbn [fst snd l_in l_out l_penalty l_fee]. split; [assumption|]. lia.
  - destruct (withdraw_deposit dc dl id v) as [[[dl' a] p]|] eqn:Hw.
    2: { repeat split; cbn; auto. }
    assert (Hv : forall x, v = Some x -> 0 <= x).
    { intros x ->. cbn in Hw. destruct (Z.ltb_spec x 0); [discriminate|assumption]. }
    assert (Hw' : withdraw_from dc dl id v = Some (dl', a, p)).
    { unfold withdraw_deposit in Hw. destruct v as [x|]; [|exact Hw].
      destruct (x <? 0); [discriminate|exact Hw]. }
    destruct (withdraw_from_spec dc dl id v dl' a p B1 Ho Hv Hw') as (W1 & W2 & W3 & W4).
    unfold balanced. cbn [fst snd l_in l_out l_penalty l_fee]. split; [assumption|]. lia.
  - destruct (pay_steps (d_height dc) (d_price dc) dl n) as [[[dl' paid] k]|] eqn:Hp.
    2: { repeat split; cbn; auto. }
    destruct (pay_spec _ _ _ _ _ _ _ B1 Ho Hp) as (P0 & P1 & _ & _ & P2 & P3 & P4 & _).
    unfold balanced. cbn [fst snd l_in l_out l_penalty l_fee]. unfold by_dep in *.
    split; [assumption|]. destruct k as [k|]; nia.
  - unfold balanced. cbn [fst snd].
    assert (E : map reload dl = dl).
    { clear - B1. induction B1; cbn; [reflexivity|]. rewrite reload_same by assumption. congruence. }
    rewrite E. repeat split; auto.
Qed.

Lemma history_balanced : forall ops x, balanced x -> Forall op_ok ops ->
  balanced (fold_left do_op ops x).
Proof.
  induction ops as [|o ops IH]; intros x Hx Ho; [exact Hx|]. inversion Ho; subst.
  cbn [fold_left]. apply IH; [|assumption]. apply do_op_balanced; assumption.
Qed.

(** Reloading makes no difference. *)
Lemma history_reload : forall ops x, balanced x -> Forall op_ok ops ->
  fold_left do_op ops x =
  fold_left do_op (filter (fun o => match o with Reload => false | _ => true end) ops) x.
Proof.
  induction ops as [|o ops IH]; intros x Hx Ho; [reflexivity|].
  inversion Ho; subst. cbn [fold_left filter].
  assert (Hb : balanced (do_op x o)) by (apply do_op_balanced; assumption).
  rewrite (IH _ Hb) by assumption.
  destruct o; cbn [fold_left]; try reflexivity.
  f_equal. destruct x as [dl l]. cbn [do_op]. f_equal.
  destruct Hx as [Hx _]. cbn in Hx.
  clear - Hx. induction Hx; cbn; [reflexivity|]. rewrite reload_same by assumption. congruence.
Qed.
