(** Who paid what, in the details of a receipt. *)
Require Import ZArith List Bool Lia.
From Verif.Model Require Import CallFrames Deposits FeePayers TxExecute.
From Verif.Spec Require Import CallSpec DepositSpec FeeSpec TxSpec.
From Verif.Proof Require Import DepositFacts FeeFacts FeeBounds TxPays TxMaster TxAccount.
Import ListNotations.
Open Scope Z_scope.

Section Details.
  Variable A : Type.
  Variable eqb : A -> A -> bool.
  Hypothesis eqb_eq : forall a b, eqb a b = true <-> a = b.
  Notation entry := (entry A).

  Definition amount (l : list (A * Z)) (a : A) : Z :=
    fold_right (fun x n => (if eqb (fst x) a then snd x else 0) + n) 0 l.
  Definition amount3 (l : list entry) (a : A) : Z :=
    fold_right (fun x n => (if eqb (fst (fst x)) a then snd (fst x) else 0) + n) 0 l.
  Definition paid_of (l : list (paid_by A)) (a : A) : Z :=
    fold_right (fun d n => (if eqb (p_addr (pd_payer d)) a then pd_paid d else 0) + n) 0 l.
  Definition billed (l : list (bill A)) (a : A) : Z :=
    fold_right (fun b n => (if eqb (b_payer b) a then b_paid b else 0) + n) 0 l.

  Lemma merge_one_amount : forall a p f l x,
    amount3 (merge_one eqb a p f l) x = (if eqb a x then p else 0) + amount3 l x.
  Proof.
    intros a p f l x. induction l as [|[[b p1] f1] l IH]; [reflexivity|]. cbn [merge_one].
    destruct (eqb a b) eqn:X.
    - apply eqb_eq in X. subst b. unfold amount3. cbn [fold_right fst snd]. destruct (eqb a x); lia.
    - change (amount3 ((b, p1, f1) :: merge_one eqb a p f l) x)
        with ((if eqb b x then p1 else 0) + amount3 (merge_one eqb a p f l) x).
      change (amount3 ((b, p1, f1) :: l) x) with ((if eqb b x then p1 else 0) + amount3 l x). rewrite IH. lia.
  Qed.

  Lemma merged_amount : forall l x, amount3 (merged eqb l) x = paid_of l x.
  Proof.
    intros l x. unfold merged.
    assert (G : forall m, amount3 (fold_left (fun m d => merge_one eqb (p_addr (pd_payer d)) (pd_paid d) (pd_fee d) m) l m) x
                = paid_of l x + amount3 m x).
    { induction l as [|d l IH]; intro m; cbn [fold_left]; [reflexivity|].
      rewrite IH, merge_one_amount. change (paid_of (d :: l) x) with ((if eqb (p_addr (pd_payer d)) x then pd_paid d else 0) + paid_of l x). lia. }
    rewrite G. unfold amount3. cbn. lia.
  Qed.

  Lemma payments_amount : forall l x, amount3 (payments eqb l) x = paid_of l x.
  Proof.
    intros l x. rewrite <- merged_amount. unfold payments.
    induction (merged eqb l) as [|y m IH]; [reflexivity|]. cbn [filter].
    change (amount3 (y :: m) x) with ((if eqb (fst (fst y)) x then snd (fst y) else 0) + amount3 m x).
    destruct (Z.eqb_spec (snd (fst y)) 0) as [Y|Y]; cbn [negb].
    - rewrite IH, Y. destruct (eqb (fst (fst y)) x); lia.
    - change (amount3 (y :: filter (fun e => negb (snd (fst e) =? 0)) m) x)
        with ((if eqb (fst (fst y)) x then snd (fst y) else 0) + amount3 (filter (fun e => negb (snd (fst e) =? 0)) m) x).
      unfold entry in *. rewrite IH. lia.
  Qed.

  Lemma add_detail_amount : forall l a n x,
    amount (add_detail eqb l a n) x = amount l x + (if eqb a x then n else 0).
  Proof.
    intros l a n x. induction l as [|[b m] l IH]; cbn [add_detail].
    - unfold amount. cbn. lia.
    - destruct (eqb b a) eqn:X.
      + apply eqb_eq in X. subst b. unfold amount. cbn [fold_right fst snd]. destruct (eqb a x); lia.
      + change (amount ((b, m) :: add_detail eqb l a n) x) with ((if eqb b x then m else 0) + amount (add_detail eqb l a n) x).
        change (amount ((b, m) :: l) x) with ((if eqb b x then m else 0) + amount l x). rewrite IH. lia.
  Qed.

  Lemma add_detail_in : forall l a n y, In y (map fst (add_detail eqb l a n)) <-> In y (map fst l) \/ y = a.
  Proof.
    intros l a n y. induction l as [|[b m] l IH]; cbn [add_detail map fst In].
    - intuition congruence.
    - destruct (eqb b a) eqn:X; cbn [map fst In].
      + apply eqb_eq in X. subst b. intuition congruence.
      + rewrite IH. intuition congruence.
  Qed.

  Lemma add_detail_nodup : forall l a n, NoDup (map fst l) -> NoDup (map fst (add_detail eqb l a n)).
  Proof.
    intros l a n. induction l as [|[b m] l IH]; cbn [add_detail map fst]; intro H.
    - constructor; [intros []|constructor].
    - inversion H as [|? ? H1 H2]; subst. destruct (eqb b a) eqn:X; cbn [map fst].
      + constructor; assumption.
      + constructor; [|apply IH; exact H2]. intro Y. apply add_detail_in in Y. destruct Y as [Y|Y]; [exact (H1 Y)|].
        subst b. assert (eqb a a = true) by (apply eqb_eq; reflexivity). congruence.
  Qed.

  Lemma add_payment_amount : forall d p x,
    amount (fst (add_payment eqb d p)) x = amount (fst d) x + (if eqb (fst (fst p)) x then snd (fst p) else 0) /\
    (NoDup (map fst (fst d)) -> NoDup (map fst (fst (add_payment eqb d p)))).
  Proof.
    intros [l o] [[a n] f] x. unfold add_payment. cbn [fst snd]. destruct (Z.eqb_spec n 0) as [->|Y].
    - split; [destruct (eqb a x); lia|auto].
    - split; [apply add_detail_amount|apply add_detail_nodup].
  Qed.

  Lemma add_payments_amount : forall ps d x,
    amount (fst (fold_left (add_payment eqb) ps d)) x = amount (fst d) x + amount3 ps x /\
    (NoDup (map fst (fst d)) -> NoDup (map fst (fst (fold_left (add_payment eqb) ps d)))).
  Proof.
    induction ps as [|p ps IH]; intros d x; cbn [fold_left].
    - change (amount3 [] x) with 0. split; [lia|auto].
    - destruct (add_payment_amount d p x) as [P1 P2]. destruct (IH (add_payment eqb d p) x) as [I1 I2].
      change (amount3 (p :: ps) x) with ((if eqb (fst (fst p)) x then snd (fst p) else 0) + amount3 ps x).
      split; [lia|auto].
  Qed.

  Lemma details_amount : forall from pd bills used x,
    Forall2 (same_line A) pd bills ->
    let d := details A eqb from pd (used - total bills) in
    NoDup (map fst (fst d)) /\
    (fst d <> [] -> amount (fst d) x = billed bills x + (if eqb from x then used - total bills else 0)).
  Proof.
    intros from pd bills used x H.
    assert (Hp : paid_of pd x = billed bills x).
    { induction H as [|d b pd bills (D1 & D2 & D3 & D4) H IH]; [reflexivity|].
      change (paid_of (d :: pd) x) with ((if eqb (p_addr (pd_payer d)) x then pd_paid d else 0) + paid_of pd x).
      change (billed (b :: bills) x) with ((if eqb (b_payer b) x then b_paid b else 0) + billed bills x).
      rewrite IH, D1, D3. reflexivity. }
    rewrite <- Hp, <- payments_amount. unfold details. cbv zeta.
    set (pays := payments eqb pd). clearbody pays. destruct (add_payments_amount pays ([], None) x) as [Q1 Q2].
    set (d := fold_left (add_payment eqb) pays ([], None)) in *.
    assert (N : NoDup (map fst (fst d))) by (apply Q2; constructor).
    change (amount (fst ([], None)) x) with 0 in Q1.
    destruct pays as [|p ps].
    - cbn [List.length Nat.eqb negb andb]. split; [exact N|]. intro Y. exfalso. apply Y. reflexivity.
    - change (negb (Nat.eqb (List.length (p :: ps)) 0)) with true. cbn [andb].
      destruct (Z.eqb_spec (used - total bills) 0) as [Y|Y]; cbn [negb].
      + split; [exact N|]. intros _. rewrite Y. destruct (eqb from x); lia.
      + destruct (add_payment_amount d (from, used - total bills, Some (used - total bills)) x) as [P1 P2].
        cbn [fst snd] in P1. split; [apply P2; exact N|]. intros _. lia.
  Qed.
End Details.
