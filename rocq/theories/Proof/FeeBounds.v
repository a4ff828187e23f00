(** What the rules give: nobody pays more than agreed, and the whole is never
    more than the steps used. *)
Require Import ZArith List Bool Lia.
From Verif.Model Require Import CallFrames Deposits FeePayers.
From Verif.Spec Require Import DepositSpec FeeSpec.
From Verif.Proof Require Import DepositFacts FeeFacts.
Import ListNotations.
Open Scope Z_scope.

Section Bounds.
  Variable A : Type.
  Variable eqb : A -> A -> bool.
  Variable is_system : A -> bool.
  Variables height price : Z.
  Hypothesis eqb_eq : forall a b, eqb a b = true <-> a = b.
  Notation purse := (purse A).
  Notation call := (call A).
  Notation bill := (bill A).
  Notation pay := (pay_for eqb is_system height price).
  Notation settle := (settle pay).
  Notation settle_all := (settle_all pay).

  Definition good (s : purse) : Prop := forall a, Forall sound (deposits_of s a).

  Definition used_of (c : call) : Z := match c with Call _ u _ => u end.
  Definition sum_used (cs : list call) : Z := fold_right (fun c n => used_of c + n) 0 cs.

  (** The coins of the deposits of [a] which the bill takes, and the coins
      which the system's deposit is charged. *)
  Definition coins_by (l : list bill) (a : A) : Z :=
    fold_right (fun b n => (if negb (is_system a) && eqb a (b_payer b) then by_dep (b_fee b) * price else 0) + n) 0 l.
  Definition system_by (l : list bill) : Z :=
    fold_right (fun b n => (if is_system (b_payer b) then b_paid b * price else 0) + n) 0 l.

  Lemma coins_by_app : forall l m a, coins_by (l ++ m) a = coins_by l a + coins_by m a.
  Proof. intros l m a. unfold coins_by. induction l as [|b l IH]; cbn [app fold_right]; [reflexivity|]. rewrite IH. lia. Qed.
  Lemma system_by_app : forall l m, system_by (l ++ m) = system_by l + system_by m.
  Proof. intros l m. unfold system_by. induction l as [|b l IH]; cbn [app fold_right]; [reflexivity|]. rewrite IH. lia. Qed.

  Definition moved (s s' : purse) (l : list bill) : Prop :=
    (forall a, sum coins (deposits_of s' a) = sum coins (deposits_of s a) - coins_by l a) /\
    usage s' = usage s + system_by l /\
    (forall a, (forall b, In b l -> b_payer b <> a) -> deposits_of s' a = deposits_of s a).

  Definition right_line (b : bill) : Prop :=
    0 <= by_dep (b_fee b) <= b_paid b /\ b_paid b <= b_used b * b_percent b / 100.

  Lemma eqb_refl : forall a, eqb a a = true.
  Proof. intro a. apply eqb_eq. reflexivity. Qed.

  Lemma pay_good : forall s a n s' paid fee q u,
    good s -> 0 <= n -> pay s a n = (s', paid, fee) ->
    good s' /\ 0 <= by_dep fee <= paid /\ paid <= n /\ moved s s' [mkBill a q u paid fee].
  Proof.
    intros s a n s' paid fee q u G Hn H. unfold pay_for in H.
    destruct (is_system a) eqn:Hsys.
    - injection H as <- <- <-. cbn [by_dep]. split; [exact G|]. split; [lia|]. split; [lia|].
      unfold moved, coins_by, system_by. cbn [fold_right b_payer b_fee b_paid deposits_of usage by_dep]. rewrite Hsys.
      split; [|split; [lia|auto]]. intro b. destruct (negb (is_system b) && eqb b a); cbn; lia.
    - destruct (pay_steps height price (deposits_of s a) n) as [[[dl p] k]|] eqn:Hp.
      + injection H as <- <- <-.
        destruct (pay_spec _ _ _ _ _ _ _ (G a) Hn Hp) as (P0 & P1 & P2 & P3 & P4 & P5 & P6 & P7 & P8).
        split.
        { intro b. cbn. destruct (eqb a b); [exact P1|apply G]. }
        split; [exact P4|]. split; [exact P5|].
        unfold moved, coins_by, system_by. cbn [fold_right b_payer b_fee b_paid deposits_of usage set_deposits].
        rewrite Hsys. split; [|split; [lia|]].
        * intro b. destruct (eqb a b) eqn:E.
          -- apply eqb_eq in E. subst b. rewrite eqb_refl, Hsys. cbn [negb andb]. lia.
          -- assert (E2 : eqb b a = false).
             { destruct (eqb b a) eqn:E2; [|reflexivity]. apply eqb_eq in E2. subst b. rewrite eqb_refl in E. discriminate. }
             rewrite E2, andb_false_r. lia.
        * intros b Hb. destruct (eqb a b) eqn:E; [|reflexivity].
          apply eqb_eq in E. exfalso. apply (Hb _ (or_introl eq_refl)). exact E.
      + injection H as <- <- <-. cbn [by_dep]. split; [exact G|]. split; [lia|]. split; [lia|].
        unfold moved, coins_by, system_by. cbn [fold_right b_payer b_fee b_paid by_dep]. rewrite Hsys.
        split; [|split; [lia|auto]]. intro b. destruct (negb (is_system b) && eqb b a); cbn; lia.
  Qed.

  Lemma moved_trans : forall s1 s2 s3 l m, moved s1 s2 l -> moved s2 s3 m -> moved s1 s3 (l ++ m).
  Proof.
    intros s1 s2 s3 l m (A1 & A2 & A3) (B1 & B2 & B3). split; [|split].
    - intro a. rewrite B1, A1, coins_by_app. lia.
    - rewrite B2, A2, system_by_app. lia.
    - intros a H. rewrite B3, A3; [reflexivity| |]; intros b Hb; apply H; apply in_or_app; auto.
  Qed.

  Lemma moved_refl : forall s, moved s s [].
  Proof. intro s. unfold moved. cbn. split; [intro; lia|split; [lia|auto]]. Qed.

  Lemma share_le : forall x q, 0 <= x -> 0 < q <= 100 -> 0 <= x * q / 100 <= x.
  Proof.
    intros x q Hx Hq. split; [apply Z.div_pos; nia|].
    apply Z.div_le_upper_bound; nia.
  Qed.

  Lemma share_mono : forall x y q, x <= y -> 0 < q -> x * q / 100 <= y * q / 100.
  Proof. intros x y q H Hq. apply Z.div_le_mono; nia. Qed.

  Lemma share_add : forall x d q, 0 <= d -> 0 < q <= 100 -> (x + d) * q / 100 <= x * q / 100 + d.
  Proof.
    intros x d q Hd Hq.
    rewrite <- Z.div_add by lia. apply Z.div_le_mono; nia.
  Qed.

  Definition bounded (r : purse * list bill * Z * Z) (s : purse) (used : Z) : Prop :=
    let '(s1, bills, due, unpaid) := r in
    good s1 /\ 0 <= due <= used /\ 0 <= unpaid /\ 0 <= total bills /\
    total bills + unpaid <= due /\ Forall right_line bills /\ moved s s1 bills.

  Fixpoint all_sane (l : list call) : Prop :=
    match l with [] => True | c :: r => sane c /\ all_sane r end.

  Lemma sane_eq : forall inner used agreed,
    sane (Call inner used agreed) <->
    (sum_used inner <= used /\ 0 <= used /\
     match agreed with Some (_, q) => 0 < q <= 100 | None => True end /\ all_sane inner).
  Proof.
    intros inner used agreed. cbn [sane].
    assert (E : (fix all (l : list call) : Prop :=
           match l with [] => True | c :: r => sane c /\ all r end) inner <-> all_sane inner).
    { induction inner as [|c r IH]; cbn; [tauto|]. rewrite IH. tauto. }
    rewrite E. reflexivity.
  Qed.

  Lemma bounded_all : forall cs,
    (forall c, In c cs -> sane c -> forall s, good s -> bounded (settle c s) s (used_of c)) ->
    all_sane cs -> forall s, good s -> bounded (settle_all cs s) s (sum_used cs).
  Proof.
    induction cs as [|c r IH]; intros Hc Hs s G.
    - cbn. split; [exact G|]. split; [lia|]. split; [lia|]. split; [lia|]. split; [lia|].
      split; [constructor|apply moved_refl].
    - destruct Hs as [S1 S2]. cbn [FeeSpec.settle_all].
      pose proof (Hc c (or_introl eq_refl) S1 s G) as B1. unfold bounded in B1.
      destruct (settle c s) as [[[s1 b1] d1] u1]. destruct B1 as (G1 & D1 & U1 & T1 & L1 & R1 & M1).
      pose proof (IH (fun x Hx => Hc x (or_intror Hx)) S2 s1 G1) as B2. unfold bounded in B2.
      destruct (settle_all r s1) as [[[s2 b2] d2] u2]. destruct B2 as (G2 & D2 & U2 & T2 & L2 & R2 & M2).
      unfold bounded. rewrite total_app. change (sum_used (c :: r)) with (used_of c + sum_used r).
      split; [exact G2|]. split; [lia|]. split; [lia|]. split; [lia|]. split; [lia|].
      split; [apply Forall_app; auto|]. exact (moved_trans _ _ _ _ _ M1 M2).
  Qed.

  Lemma bounded_call : forall c, sane c -> forall s, good s -> bounded (settle c s) s (used_of c).
  Proof.
    fix IH 1. intros [inner used agreed] Hs s G.
    destruct (proj1 (sane_eq inner used agreed) Hs) as (S1 & S2 & S3 & S4).
    assert (B : bounded (settle_all inner s) s (sum_used inner)).
    { apply bounded_all; [|exact S4|exact G]. clear - IH. revert inner.
      fix IHl 1. intros [|c r] x Hx; [destruct Hx|]. cbn [In] in Hx.
      destruct Hx as [Hx|Hx]; [rewrite <- Hx; apply IH|exact (IHl r x Hx)]. }
    rewrite settle_eq. unfold bounded in B.
    destruct (settle_all inner s) as [[[s1 b1] d1] u1]. destruct B as (G1 & D1 & U1 & T1 & L1 & R1 & M1).
    cbn [used_of]. destruct agreed as [[a q]|].
    - cbv zeta. set (asked := (used - d1 + u1) * q / 100).
      destruct (pay s1 a asked) as [[s2 paid] fee] eqn:Hp.
      assert (Ha : 0 <= asked <= (used - d1 + u1)) by (apply share_le; lia).
      destruct (pay_good _ _ _ _ _ _ q used G1 (proj1 Ha) Hp) as (G2 & F1 & F2 & M2).
      pose proof (share_le (used - d1) q ltac:(lia) S3) as N1.
      pose proof (share_add (used - d1) u1 q U1 S3) as N2.
      pose proof (share_mono (used - d1 + u1) used q ltac:(lia) (proj1 S3)) as N3.
      fold asked in N2, N3.
      unfold bounded. rewrite total_app. change (total [mkBill a q used paid fee]) with (paid + 0).
      split; [exact G2|]. split; [lia|]. split; [lia|]. split; [lia|]. split; [lia|].
      split; [|exact (moved_trans _ _ _ _ _ M1 M2)].
      apply Forall_app. split; [exact R1|]. constructor; [|constructor].
      unfold right_line. cbn [b_fee b_paid b_used b_percent]. lia.
    - unfold bounded. split; [exact G1|]. split; [lia|]. auto.
  Qed.

  Lemma bounded_calls : forall cs, all_sane cs -> forall s, good s ->
    bounded (settle_all cs s) s (sum_used cs).
  Proof. intros cs H s G. apply bounded_all; auto. intros c _ Hc s0 G0. apply bounded_call; auto. Qed.

  Lemma bounded_tx : forall cs first steps s,
    all_sane cs -> match first with Some (_, q) => 0 < q <= 100 | None => True end ->
    sum_used cs <= steps -> 0 <= steps -> good s ->
    let (s', bills) := settle_tx pay cs first steps s in
    good s' /\ 0 <= total bills <= steps /\ Forall right_line bills /\ moved s s' bills.
  Proof.
    intros cs first steps s Hs Hf Hu Hn G. unfold settle_tx.
    pose proof (bounded_calls cs Hs s G) as B. unfold bounded in B.
    destruct (settle_all cs s) as [[[s1 b1] d1] u1]. destruct B as (G1 & D1 & U1 & T1 & L1 & R1 & M1).
    destruct first as [[a q]|]; [|split; [exact G1|]; split; [lia|]; auto].
    set (asked := (steps - total b1) * q / 100).
    destruct (pay s1 a asked) as [[s2 paid] fee] eqn:Hp.
    assert (Ha : 0 <= asked <= steps - total b1) by (apply share_le; lia).
    destruct (pay_good _ _ _ _ _ _ q steps G1 (proj1 Ha) Hp) as (G2 & F1 & F2 & M2).
    pose proof (share_mono (steps - total b1) steps q ltac:(lia) (proj1 Hf)) as N3. fold asked in N3.
    rewrite total_app. change (total [mkBill a q steps paid fee]) with (paid + 0).
    split; [exact G2|]. split; [lia|]. split; [|exact (moved_trans _ _ _ _ _ M1 M2)].
    apply Forall_app. split; [exact R1|]. constructor; [|constructor].
    unfold right_line. cbn [b_fee b_paid b_used b_percent]. lia.
  Qed.

  (** ** A contract without deposits *)

  Definition poor (s : purse) (a : A) : Prop := deposits_of s a = [] \/ price <= 0.
  Definition unpaid_line (a : A) (b : bill) : Prop := b_payer b = a -> b_paid b = 0 /\ b_fee b = None.

  Lemma poor_pay : forall s a x n s' paid fee q u, is_system a = false -> poor s a ->
    pay s x n = (s', paid, fee) -> poor s' a /\ unpaid_line a (mkBill x q u paid fee).
  Proof.
    intros s a x n s' paid fee q u Hsys Hp H. unfold pay_for in H. unfold unpaid_line. cbn [b_payer b_paid b_fee].
    destruct (is_system x) eqn:Hx.
    - injection H as <- <- <-. split; [exact Hp|]. intros ->. congruence.
    - destruct (pay_steps height price (deposits_of s x) n) as [[[dl p] k]|] eqn:Hs.
      + injection H as <- <- <-.
        assert (Hne : ~ poor s x).
        { intros [E|E]; unfold pay_steps in Hs.
          - rewrite E in Hs. destruct (price <=? 0); discriminate Hs.
          - destruct (Z.leb_spec price 0); [discriminate Hs|lia]. }
        split.
        * destruct Hp as [E|E]; [|now right]. left. cbn [deposits_of set_deposits].
          destruct (eqb x a) eqn:Exa; [|exact E]. apply eqb_eq in Exa. subst x. exfalso. apply Hne. now left.
        * intros ->. exfalso. exact (Hne Hp).
      + injection H as <- <- <-. split; [exact Hp|]. auto.
  Qed.

  Lemma poor_call : forall a, is_system a = false -> forall c s, poor s a ->
    let '(s', bills, _, _) := settle c s in poor s' a /\ Forall (unpaid_line a) bills.
  Proof.
    intros a Hsys. fix IH 1. intros [inner used agreed] s Hp.
    assert (B : forall cs, (forall c, In c cs -> forall s, poor s a ->
                  let '(s', bills, _, _) := settle c s in poor s' a /\ Forall (unpaid_line a) bills) ->
                forall s, poor s a ->
                let '(s', bills, _, _) := settle_all cs s in poor s' a /\ Forall (unpaid_line a) bills).
    { clear IH. induction cs as [|c r IHr]; intros Hc s0 H0; cbn [FeeSpec.settle_all].
      - split; [exact H0|constructor].
      - pose proof (Hc c (or_introl eq_refl) s0 H0) as C1.
        destruct (settle c s0) as [[[s1 b1] d1] u1]. destruct C1 as [P1 F1].
        pose proof (IHr (fun x Hx => Hc x (or_intror Hx)) s1 P1) as C2.
        destruct (settle_all r s1) as [[[s2 b2] d2] u2]. destruct C2 as [P2 F2].
        split; [exact P2|]. apply Forall_app. auto. }
    assert (B1 : let '(s', bills, _, _) := settle_all inner s in poor s' a /\ Forall (unpaid_line a) bills).
    { apply B; [|exact Hp]. clear - IH. revert inner.
      fix IHl 1. intros [|c r] x Hx; [destruct Hx|]. cbn [In] in Hx.
      destruct Hx as [Hx|Hx]; [rewrite <- Hx; apply IH|exact (IHl r x Hx)]. }
    rewrite settle_eq. destruct (settle_all inner s) as [[[s1 b1] d1] u1]. destruct B1 as [P1 F1].
    destruct agreed as [[x q]|]; [|split; assumption]. cbv zeta.
    destruct (pay s1 x ((used - d1 + u1) * q / 100)) as [[s2 paid] fee] eqn:Hpay.
    destruct (poor_pay _ a _ _ _ _ _ q used Hsys P1 Hpay) as [P2 F2].
    split; [exact P2|]. apply Forall_app. split; [exact F1|]. constructor; [exact F2|constructor].
  Qed.

  Lemma poor_tx : forall a cs first steps s, is_system a = false -> poor s a ->
    let (s', bills) := settle_tx pay cs first steps s in Forall (unpaid_line a) bills.
  Proof.
    intros a cs first steps s Hsys Hp. unfold settle_tx.
    assert (B : forall cs s, poor s a ->
                let '(s', bills, _, _) := settle_all cs s in poor s' a /\ Forall (unpaid_line a) bills).
    { clear - eqb_eq Hsys. induction cs as [|c r IHr]; intros s0 H0; cbn [FeeSpec.settle_all].
      - split; [exact H0|constructor].
      - pose proof (poor_call a Hsys c s0 H0) as C1.
        destruct (settle c s0) as [[[s1 b1] d1] u1]. destruct C1 as [P1 F1].
        pose proof (IHr s1 P1) as C2.
        destruct (settle_all r s1) as [[[s2 b2] d2] u2]. destruct C2 as [P2 F2].
        split; [exact P2|]. apply Forall_app. auto. }
    pose proof (B cs s Hp) as C. destruct (settle_all cs s) as [[[s1 b1] d1] u1]. destruct C as [P1 F1].
    destruct first as [[x q]|]; [|exact F1].
    destruct (pay s1 x ((steps - total b1) * q / 100)) as [[s2 paid] fee] eqn:Hpay.
    destruct (poor_pay _ a _ _ _ _ _ q steps Hsys P1 Hpay) as [P2 F2].
    apply Forall_app. split; [exact F1|]. constructor; [exact F2|constructor].
  Qed.
End Bounds.
