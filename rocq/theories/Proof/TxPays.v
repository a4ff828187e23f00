(** The payments of a receipt. *)
Require Import ZArith List Bool Lia.
From Verif.Model Require Import CallFrames Deposits FeePayers TxExecute.
From Verif.Spec Require Import DepositSpec FeeSpec.
From Verif.Proof Require Import DepositFacts FeeFacts FeeBounds.
Import ListNotations.
Open Scope Z_scope.

Section Pays.
  Variable A : Type.
  Variable eqb : A -> A -> bool.

  Definition entry := (A * Z * option Z)%type.
  Definition e_paid (x : entry) : Z := snd (fst x).
  Definition e_fee (x : entry) : Z := by_dep (snd x).
  Definition sum_paid (l : list entry) : Z := fold_right (fun x n => e_paid x + n) 0 l.
  Definition sum_fee (l : list entry) : Z := fold_right (fun x n => e_fee x + n) 0 l.
  Definition fair (x : entry) : Prop := 0 <= e_fee x <= e_paid x.

  Lemma by_dep_add : forall a b, by_dep (add_opt a b) = by_dep a + by_dep b.
  Proof. intros [a|] [b|]; cbn; lia. Qed.

  Lemma merge_one_sums : forall a p f l, 0 <= by_dep f <= p -> Forall fair l ->
    Forall fair (merge_one eqb a p f l) /\
    sum_paid (merge_one eqb a p f l) = p + sum_paid l /\
    sum_fee (merge_one eqb a p f l) = by_dep f + sum_fee l.
  Proof.
    intros a p f l Hp. induction l as [|[[b p1] f1] l IH]; intro H.
    - cbn. split; [constructor; [exact Hp|constructor]|]. unfold e_paid, e_fee. cbn. lia.
    - inversion H as [|? ? H1 H2]; subst. cbn [merge_one]. unfold fair, e_paid, e_fee in H1. cbn in H1.
      destruct (eqb a b).
      + split; [constructor; [|exact H2]; unfold fair, e_paid, e_fee; cbn; rewrite by_dep_add; lia|].
        cbn. unfold e_paid, e_fee. cbn. rewrite by_dep_add. lia.
      + destruct (IH H2) as (I1 & I2 & I3).
        split; [constructor; [exact H1|exact I1]|]. cbn [sum_paid sum_fee fold_right].
        unfold sum_paid, sum_fee in *. cbn [fold_right]. lia.
  Qed.

  Definition pd_ok (d : paid_by A) : Prop := 0 <= by_dep (pd_fee d) <= pd_paid d.
  Definition pd_total (l : list (paid_by A)) : Z := fold_right (fun d n => pd_paid d + n) 0 l.
  Definition pd_fees (l : list (paid_by A)) : Z := fold_right (fun d n => by_dep (pd_fee d) + n) 0 l.

  Lemma merged_sums : forall l, Forall pd_ok l ->
    Forall fair (merged eqb l) /\ sum_paid (merged eqb l) = pd_total l /\ sum_fee (merged eqb l) = pd_fees l.
  Proof.
    intros l H. unfold merged.
    assert (G : forall m, Forall fair m ->
       let r := fold_left (fun m d => merge_one eqb (p_addr (pd_payer d)) (pd_paid d) (pd_fee d) m) l m in
       Forall fair r /\ sum_paid r = pd_total l + sum_paid m /\ sum_fee r = pd_fees l + sum_fee m).
    { induction H as [|d l Hd H IH]; intros m Hm; cbn [fold_left].
      - cbn. auto.
      - destruct (merge_one_sums (p_addr (pd_payer d)) (pd_paid d) (pd_fee d) m Hd Hm) as (M1 & M2 & M3).
        destruct (IH _ M1) as (I1 & I2 & I3). cbv zeta in *. split; [exact I1|].
        change (pd_total (d :: l)) with (pd_paid d + pd_total l).
        change (pd_fees (d :: l)) with (by_dep (pd_fee d) + pd_fees l). rewrite I2, I3, M2, M3. lia. }
    destruct (G [] (Forall_nil _)) as (G1 & G2 & G3). cbv zeta in *. split; [exact G1|]. split; [refine (eq_trans G2 _)|refine (eq_trans G3 _)]; cbn; lia.
  Qed.

  Lemma payments_sums : forall l, Forall pd_ok l ->
    Forall fair (payments eqb l) /\ Forall (fun x => e_paid x <> 0) (payments eqb l) /\
    sum_paid (payments eqb l) = pd_total l /\ sum_fee (payments eqb l) = pd_fees l.
  Proof.
    intros l H. destruct (merged_sums l H) as (M1 & M2 & M3). unfold payments.
    rewrite <- M2, <- M3. clear M2 M3 H. induction M1 as [|x m Hx M1 IH]; [cbn; auto|].
    destruct IH as (I1 & I2 & I3 & I4). cbn [filter].
    unfold sum_paid, sum_fee in *. cbn [fold_right].
    destruct (Z.eqb_spec (snd (fst x)) 0) as [E|E]; cbn [negb].
    - split; [exact I1|]. split; [exact I2|]. unfold fair, e_paid in *. lia.
    - split; [constructor; auto|]. split; [constructor; auto|]. cbn [fold_right]. lia.
  Qed.

  Definition det_sum (l : list (A * Z)) : Z := fold_right (fun x n => snd x + n) 0 l.

  Lemma add_detail_sum : forall l a n, det_sum (add_detail eqb l a n) = det_sum l + n /\ add_detail eqb l a n <> [].
  Proof.
    intros l a n. induction l as [|[b m] l [IH1 IH2]]; cbn [add_detail].
    - split; [cbn; lia|discriminate].
    - destruct (eqb b a); (split; [|discriminate]); unfold det_sum in *; cbn [fold_right snd] in *; lia.
  Qed.

  Lemma add_payment_sum : forall x p, det_sum (fst (add_payment eqb x p)) = det_sum (fst x) + e_paid p /\
    by_dep (snd (add_payment eqb x p)) = by_dep (snd x) + e_fee p /\
    (e_paid p <> 0 \/ fst x <> [] -> fst (add_payment eqb x p) <> []).
  Proof.
    intros [l o] [[a n] f]. unfold add_payment, e_paid, e_fee. cbn [fst snd]. rewrite by_dep_add.
    destruct (Z.eqb_spec n 0) as [->|E].
    - split; [lia|]. split; [reflexivity|]. intros [H|H]; [congruence|exact H].
    - destruct (add_detail_sum l a n) as [D1 D2]. split; [exact D1|]. split; [reflexivity|]. intros _. exact D2.
  Qed.

  Lemma add_payments_sum : forall ps x,
    Forall (fun x => e_paid x <> 0) ps ->
    let d := fold_left (add_payment eqb) ps x in
    det_sum (fst d) = det_sum (fst x) + sum_paid ps /\
    by_dep (snd d) = by_dep (snd x) + sum_fee ps /\
    (ps <> [] \/ fst x <> [] -> fst d <> []).
  Proof.
    induction ps as [|p ps IH]; intros x H; cbn [fold_left].
    - cbn. split; [lia|]. split; [lia|]. intros [X|X]; congruence.
    - inversion H as [|? ? H1 H2]; subst. destruct (add_payment_sum x p) as (A1 & A2 & A3).
      destruct (IH (add_payment eqb x p) H2) as (I1 & I2 & I3). cbv zeta in *.
      unfold sum_paid, sum_fee in *. cbn [fold_right]. split; [lia|]. split; [lia|].
      intros _. apply I3. right. apply A3. left. exact H1.
  Qed.
End Pays.
